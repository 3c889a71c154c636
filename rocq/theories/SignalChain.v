(** A handler inside an allocation of a chain without lock. *)
From Verif Require Import Word Res Mem SizeClassModel ChainModel ChainSpec ChainRun.
From Coq Require Import ZArith List Bool Lia.
Import ListNotations.
Open Scope Z_scope.

(** sctk_allocator.c:701-733: [sctk_alloc_find_free_chunk] up to the test before the call that takes the chunk out of its list (736-737). *)
Definition find_only (fuel : nat) (g : cfg) (n : Z) : M Z :=
  let size := calc_chunk_size n in
  i <- lift (get_free_list_fast size) ;;
  let start := flist g i in
  l <- first_non_empty g start ;;
  r <- (if l =? 0 then ret 0 else find_adapted fuel l (s64 size)) ;;
  if (r =? 0) && negb (start =? flist g 0) then find_adapted fuel (start - 32) (s64 size) else ret r.
(** sctk_allocator.c:735-739: the rest of it. *)
Definition take_out (g : cfg) (r : Z) : M Z := (if r =? 0 then ret tt else free_list_remove g r) ;;; ret r.

Lemma find_whole : forall fuel g n s, find_free_chunk fuel g n s = bind (find_only fuel g n) (take_out g) s.
Proof.
  intros fuel g n s. unfold find_free_chunk, find_only, take_out. cbv zeta. unfold bind.
  destruct (lift _ s) as [[i s1]| | |]; cbn [rbind]; try reflexivity.
  destruct (first_non_empty g (flist g i) s1) as [[l s2]| | |]; cbn [rbind]; try reflexivity.
  match goal with |- rbind ?x _ = _ => destruct x as [[r s3]| | |] end; cbn [rbind]; reflexivity.
Qed.

(** ** It only reads *)
Definition reads {A} (x : M A) : Prop := forall s a s', x s = Ok (a, s') -> s' = s.
Lemma rd_ret {A} (a : A) : reads (ret a).
Proof. intros s b s' H. injection H as _ <-. reflexivity. Qed.
Lemma rd_load a n : reads (loadn a n).
Proof. intros s b s' H. exact (load_st a n s b s' H). Qed.
Lemma rd_bind {A B} (x : M A) (f : A -> M B) : reads x -> (forall a, reads (f a)) -> reads (bind x f).
Proof. intros X F s b s' H. apply bind_inv in H as (a & s1 & H1 & H2). apply X in H1. subst s1. exact (F a s b s' H2). Qed.
Lemma rd_lift {A} (r : res A) : reads (lift r).
Proof. intros s a s' H. unfold lift in H. destruct r; try discriminate. injection H as _ <-. reflexivity. Qed.
Lemma rd_first g : forall k i, reads (first_non_empty_loop g k i).
Proof.
  induction k as [|k IH]; intros i; cbn [first_non_empty_loop]; [apply rd_ret|]. apply rd_bind; [apply rd_load|]. intros b.
  destruct (negb (b =? 0)); [apply rd_ret|apply IH].
Qed.
Lemma rd_adapted_loop list size : forall fuel f, reads (find_adapted_loop fuel list f size).
Proof.
  induction fuel as [|fuel IH]; intros f; cbn [find_adapted_loop]; [intros s a s' H; discriminate H|].
  destruct ((f =? 0) || (f =? list)); [apply rd_ret|]. apply rd_bind; [apply rd_load|]. intros z. destruct (z <? size); [|apply rd_ret].
  apply rd_bind; [apply rd_load|]. intros n. apply IH.
Qed.
Lemma rd_adapted fuel list size : reads (find_adapted fuel list size).
Proof. unfold find_adapted. apply rd_bind; [apply rd_load|]. intros f. apply rd_bind; [apply rd_adapted_loop|]. intros r. apply rd_ret. Qed.
Lemma find_reads fuel g n : reads (find_only fuel g n).
Proof.
  unfold find_only. cbv zeta. apply rd_bind; [apply rd_lift|]. intros i. apply rd_bind; [unfold first_non_empty; apply rd_first|]. intros l.
  apply rd_bind; [destruct (l =? 0); [apply rd_ret|apply rd_adapted]|]. intros r.
  destruct ((r =? 0) && _); [apply rd_adapted|apply rd_ret].
Qed.

(** ** A chunk that was taken out *)
Lemma store_inv a n v s u s' : storen a n v s = Ok (u, s') -> accb (srng s) a (Z.of_nat n) = true /\ s' = set_mem s (sto (smem s) a n v).
Proof. unfold storen. destruct (accb _ _ _); [|discriminate]. intros E. injection E as _ <-. split; reflexivity. Qed.
Lemma remove_out g r s s' : free_list_remove g r s = Ok (tt, s') ->
  srng s' = srng s /\ loadn (r + 16) 8 s' = Ok (0, s') /\ loadn (r + 24) 8 s' = Ok (0, s').
Proof.
  unfold free_list_remove. intros H. apply bind_inv in H as (pv & s1 & H1 & H). apply load_st in H1. subst s1.
  apply bind_inv in H as (nx & s1 & H1 & H). apply load_st in H1. subst s1.
  apply bind_inv in H as (u1 & s1 & H1 & H). apply store_inv in H1 as (_ & ->).
  apply bind_inv in H as (u2 & s2 & H2 & H). apply store_inv in H2 as (_ & ->).
  apply bind_inv in H as (u3 & s3 & H3 & H).
  assert (R3 : srng s3 = srng s).
  { destruct (nx =? pv); [|injection H3 as _ <-; reflexivity]. unfold mark_status in H3. cbv zeta in H3.
    apply store_inv in H3 as (_ & ->). reflexivity. }
  clear H3. apply bind_inv in H as (u4 & s4 & H4 & H). unfold set_next in H4. apply store_inv in H4 as (A4 & ->).
  apply bind_inv in H as (u5 & s5 & H5 & H). unfold set_prev in H5. apply store_inv in H5 as (A5 & ->).
  unfold set_state in H. apply bind_inv in H as (b & s6 & H6 & H). apply load_st in H6. subst s6. apply store_inv in H as (_ & ->).
  cbn [srng smem set_mem] in *. split; [exact R3|]. unfold loadn. cbn [srng smem set_mem]. rewrite A4, A5. split; f_equal; f_equal.
  - rewrite !ld_sto_other by lia. rewrite ld_sto_same. reflexivity.
  - rewrite ld_sto_other by lia. rewrite ld_sto_same. reflexivity.
Qed.
Lemma remove_twice g r s s' : free_list_remove g r s = Ok (tt, s') -> accb (srng s) 24 8 = false -> free_list_remove g r s' = UB.
Proof.
  intros H N. destruct (remove_out g r s s' H) as (R & L16 & L24). unfold free_list_remove, get_prev, get_next, bind.
  rewrite L24. cbn [rbind]. rewrite L16. cbn [rbind]. unfold set_prev, storen. cbn [Z.add Z.of_nat Pos.of_succ_nat Pos.succ]. rewrite R, N. reflexivity.
Qed.

(** ** The handler gets the chunk that the interrupted call has found *)
Lemma handler_alloc : forall fuel g grant n s r s' cs p s2, n <> 0 -> is_huge g n = false -> find_only fuel g n s = Ok (r, s) -> 0 < r ->
  free_list_remove g r s = Ok (tt, s') -> get_size r s' = Ok (cs, s') -> sub64 cs (align16 (calc_chunk_size n)) < MIN_SIZE ->
  alloc_align fuel g grant 0 n s = Ok (p, s2) -> p = r + 16 /\ s2 = s'.
Proof.
  intros fuel g grant n s r s' cs p s2 N Hh F P0 RM GS NS A. assert (R0 : r <> 0) by lia. unfold alloc_align in A. apply Z.eqb_neq in N. rewrite N in A. cbv zeta in A.
  change (1 <? 0) with false in A. cbv iota in A. rewrite Hh in A. apply Z.eqb_neq in R0.
  apply bind_inv in A as (c & s3 & A1 & A). rewrite find_whole in A1. unfold bind in A1. rewrite F in A1. cbn [rbind] in A1.
  unfold take_out, bind in A1. rewrite R0, RM in A1. cbn [rbind] in A1. injection A1 as <- <-.
  rewrite R0 in A. apply bind_inv in A as (c & s3 & A1 & A). injection A1 as <- <-. rewrite R0 in A.
  apply bind_inv in A as (cs1 & s3 & A1 & A). rewrite GS in A1. injection A1 as <- <-.
  apply bind_inv in A as (u & s3 & A1 & A). unfold assume in A1. destruct (32 <=? cs); [|discriminate]. injection A1 as _ <-.
  apply bind_inv in A as (vr & s3 & A1 & A). unfold split_free_bloc in A1. cbv zeta in A1. unfold vsize in A1.
  assert (LV : large_of (vchunk_of_large r) = r) by (unfold large_of, vchunk_of_large, SZ_LARGE; lia). rewrite LV in A1.
  apply bind_inv in A1 as (cs1 & s4 & A2 & A1). rewrite GS in A2. injection A2 as <- <-.
  apply Z.leb_gt in NS. rewrite NS in A1. injection A1 as <- <-. cbn [fst snd] in A.
  apply bind_inv in A as (vs & s3 & A1 & A). apply load_st in A1. subst s3.
  apply bind_inv in A as (u3 & s3 & A1 & A). unfold assume in A1. destruct (calc_chunk_size n <=? vs); [|discriminate]. injection A1 as _ <-.
  apply bind_inv in A as (u4 & s3 & A1 & A). change (0 =? 0) with true in A1. injection A1 as _ <-.
  apply bind_inv in A as (v & s3 & A1 & A). injection A1 as <- <-. injection A as <- <-. split; [|reflexivity].
  unfold chunk_body, vchunk_of_large. destruct (Z.eqb_spec (r + 15) 0) as [E|E]; clear - P0 E; lia.
Qed.

Lemma handler_chain : forall fuel g grant n s r s1 s' cs p s2, n <> 0 -> is_huge g n = false ->
  find_only fuel g n s = Ok (r, s1) -> 0 < r -> accb (srng s) 24 8 = false ->
  free_list_remove g r s = Ok (tt, s') -> get_size r s' = Ok (cs, s') -> sub64 cs (align16 (calc_chunk_size n)) < 32 ->
  alloc_align fuel g grant 0 n s1 = Ok (p, s2) ->
  s1 = s /\ find_free_chunk fuel g n s = take_out g r s1 /\ p = r + 16 /\ take_out g r s2 = UB.
Proof.
  intros fuel g grant n s r s1 s' cs p s2 N Hh F P0 NU RM GS NS A. assert (E : s1 = s) by exact (find_reads fuel g n s r s1 F). subst s1.
  destruct (handler_alloc fuel g grant n s r s' cs p s2 N Hh F P0 RM GS NS A) as (-> & ->).
  split; [reflexivity|]. split; [rewrite find_whole; unfold bind at 1; rewrite F; reflexivity|]. split; [reflexivity|].
  unfold take_out, bind. assert (R0 : (r =? 0) = false) by (apply Z.eqb_neq; lia). rewrite R0, (remove_twice g r s s' RM NU). reflexivity.
Qed.

(** For the example: the result of a run, found by computation. *)
(** (no code of its own in /repo) *)
Definition gives (x : res (Z * st)) (v : Z) : bool := match x with Ok (r, _) => r =? v | _ => false end.
Lemma gives_ok x v : gives x v = true -> exists s, x = Ok (v, s).
Proof. unfold gives. destruct x as [[r s]| | |]; try discriminate. intros F. apply Z.eqb_eq in F. subst r. exists s. reflexivity. Qed.
Lemma gives_same (x : M Z) v s : reads x -> gives (x s) v = true -> x s = Ok (v, s).
Proof. intros R F. destruct (gives_ok _ _ F) as (s1 & E). rewrite E. rewrite (R s v s1 E). reflexivity. Qed.
(** (no code of its own in /repo) *)
Definition done (x : res (unit * st)) : bool := match x with Ok _ => true | _ => false end.
(** (no code of its own in /repo) *)
Definition state_of (x : res (unit * st)) (d : st) : st := match x with Ok (_, s) => s | _ => d end.
Lemma done_ok x d : done x = true -> x = Ok (tt, state_of x d).
Proof. destruct x as [[[] s]| | |]; [reflexivity|discriminate..]. Qed.
