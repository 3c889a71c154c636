(** Allocation and reallocation with hooks, compared with the functions without. *)
From Verif Require Import Word Res Mem SizeClassModel ChainModel ChainSpec Wp ChainEv HookModel HookErase.
From Coq Require Import ZArith List Bool Lia.
Import ListNotations.
Open Scope Z_scope.

Definition pick (g : cfg) (c size : Z) : M Z :=
  cs <- get_size c ;;
  assume (32 <=? cs) ;;;
  vr <- split_free_bloc (vchunk_of_large c) size ;;
  let v := fst vr in
  let r := snd vr in
  vs <- vsize v ;;
  assume (calc_chunk_size size <=? vs) ;;;
  (if r =? 0 then ret tt else free_list_insert g (large_of r) AtStart) ;;;
  ret v.
Definition asz (d n : Z) : Z := if 1 <? d then add64 n d else n.

Definition fetch (fuel : nat) (g : cfg) (gr : option Z) (size : Z) : M Z :=
  c <- find_free_chunk fuel g size ;;
  if c =? 0 then
    ok <- refill_mem g gr (calc_chunk_size size) ;;
    if ok : bool then find_free_chunk fuel g size else ret c
  else ret c.
Definition fetch_h (k : hooks) (fuel : nat) (g : cfg) (gr : option Z) (size : Z) : H Z :=
  c <-- up (find_free_chunk fuel g size) ;;
  if c =? 0 then
    ok <-- refill_mem_h k g gr (calc_chunk_size size) ;;
    if ok : bool then up (find_free_chunk fuel g size) else hret c
  else hret c.

Lemma alloc_assoc fuel g gr d n s : alloc_align fuel g gr d n s =
  (if n =? 0 then ret 0
   else if is_huge g (asz d n) then v <- request_mem g gr (asz d n) ;; finish v d
   else c <- fetch fuel g gr (asz d n) ;; if c =? 0 then ret 0 else v <- pick g c (asz d n) ;; finish v d) s.
Proof.
  unfold alloc_align. destruct (n =? 0); [reflexivity|]. cbv zeta. fold (asz d n). destruct (is_huge g (asz d n)); [reflexivity|].
  unfold fetch. rewrite bind_assoc. apply bind_eq; [reflexivity|]. intros c s1. apply bind_eq; [reflexivity|]. intros c2 s2. destruct (c2 =? 0); [reflexivity|].
  unfold pick. rewrite bind_assoc. apply bind_eq; [reflexivity|]. intros cs s3. rewrite bind_assoc. apply bind_eq; [reflexivity|]. intros _ s4.
  rewrite bind_assoc. apply bind_eq; [reflexivity|]. intros vr s5. cbv zeta. rewrite bind_assoc. apply bind_eq; [reflexivity|]. intros vs s6.
  rewrite bind_assoc. apply bind_eq; [reflexivity|]. intros _ s7. rewrite bind_assoc. reflexivity.
Qed.
Lemma hbind_eq {A B} (x y : H A) (f h : A -> H B) s : x s = y s -> (forall a s', f a s' = h a s') -> hbind x f s = hbind y h s.
Proof. intros E1 E2. unfold hbind. rewrite E1. destruct (y s) as [[[a s'] l]| | |]; cbn; auto. rewrite E2. reflexivity. Qed.
Lemma hbind_assoc {A B C} (x : H A) (f : A -> H B) (h : B -> H C) s : hbind (hbind x f) h s = hbind x (fun a => hbind (f a) h) s.
Proof.
  unfold hbind. destruct (x s) as [[[a s'] l]| | |]; cbn; auto. destruct (f a s') as [[[b s2] l2]| | |]; cbn; auto.
  destruct (h b s2) as [[[c s3] l3]| | |]; cbn; auto. rewrite app_assoc. reflexivity.
Qed.
Lemma alloc_h_assoc k fuel g gr d n s : alloc_align_h k fuel g gr d n s =
  (if n =? 0 then hret 0
   else if is_huge g (asz d n) then v <-- request_mem_h k g gr (asz d n) ;; finish_h (k_halloc k) (fun p z => HHugeAlloc (sub64 (asz d n) d) p z d) v d
   else c <-- fetch_h k fuel g gr (asz d n) ;; if c =? 0 then hret 0 else v <-- up (pick g c (asz d n)) ;; finish_h (k_alloc k) (fun p z => HAlloc (asz d n) p z d) v d) s.
Proof.
  unfold alloc_align_h. destruct (n =? 0); [reflexivity|]. cbv zeta. fold (asz d n). destruct (is_huge g (asz d n)); [reflexivity|].
  unfold fetch_h. rewrite hbind_assoc. reflexivity.
Qed.

Lemma er_fetch k fuel g gr size : erases (fetch_h k fuel g gr size) (fetch fuel g gr size).
Proof.
  unfold fetch_h, fetch. apply er_bind; [apply er_up|intros c]. destruct (c =? 0); [|apply er_ret].
  apply er_bind; [apply er_refill|intros ok]. destruct ok; [apply er_up|apply er_ret].
Qed.

Lemma ev_false {A} (x : M A) s a s' : Ev (fun _ => False) x -> x s = Ok (a, s') -> srng s' = srng s /\ sevs s' = sevs s.
Proof.
  intros H E. destruct (H _ _ _ E) as (evs & E1 & E2 & E3 & _). destruct evs as [|e l]; [|inversion E2; contradiction]. split; [exact E3|exact E1].
Qed.

Lemma pick_size g c size s v s' : pick g c size s = Ok (v, s') -> exists z, vsize v s' = Ok (z, s').
Proof.
  intros E. unfold pick in E. unfold bind at 1 in E. destruct (get_size c s) as [[cs s1]| | |]; try discriminate. cbn [rbind] in E.
  unfold bind at 1 in E. destruct (assume _ s1) as [[u s2]| | |]; try discriminate. cbn [rbind] in E.
  unfold bind at 1 in E. destruct (split_free_bloc _ _ s2) as [[vr s3]| | |]; try discriminate. cbn [rbind] in E. cbv zeta in E.
  unfold bind at 1 in E. destruct (vsize (fst vr) s3) as [[vs s4]| | |] eqn:Ev; try discriminate. cbn [rbind] in E.
  destruct (size_state _ _ _ _ Ev) as (-> & Ev'). unfold bind at 1 in E. destruct (assume _ s3) as [[u4 s5]| | |] eqn:Ea; try discriminate. cbn [rbind] in E.
  assert (s5 = s3) by (unfold assume in Ea; destruct (calc_chunk_size size <=? vs); [injection Ea as _ <-; reflexivity|discriminate]). subst s5.
  unfold bind at 1 in E. destruct ((if snd vr =? 0 then ret tt else free_list_insert g (large_of (snd vr)) AtStart) s3) as [[u6 s6]| | |] eqn:Ei; try discriminate.
  cbn [rbind ret] in E. injection E as <- <-.
  assert (R : srng s6 = srng s3).
  { destruct (snd vr =? 0); [injection Ei as _ <-; reflexivity|]. apply (ev_false _ _ _ _ (ev_insert _ g _ _) Ei). }
  exact (vsize_acc _ _ _ _ _ Ev' R).
Qed.

Lemma prepare_size g b s v s' : prepare_macro_bloc g b s = Ok (v, s') -> v = b + 47 /\ exists z, vsize v s' = Ok (z, s').
Proof.
  intros E. pose proof (proj1 (ev_false _ _ _ _ (ev_prepare _ g b) E)) as R. unfold prepare_macro_bloc in E.
  unfold bind at 1 in E. destruct (get_size b s) as [[z s1]| | |] eqn:E1; try discriminate. cbn [rbind] in E.
  destruct (load_state _ _ _ _ _ E1) as (-> & _).
  unfold bind at 1 in E. destruct (setup_chunk (b + SZ_MACRO) _ 0 s) as [[w s2]| | |] eqn:E2; try discriminate. cbn [rbind] in E.
  assert (K : accb (srng s) (b + 32) 7 = true /\ w = b + 47).
  { unfold setup_chunk in E2. unfold bind at 1 in E2. unfold set_size, storen at 1 in E2. change (Z.of_nat 7) with 7 in E2. unfold SZ_MACRO in E2 at 1.
    destruct (accb (srng s) (b + 32) 7) eqn:Ea; [|discriminate]. split; [reflexivity|]. cbn [rbind] in E2.
    repeat (unfold bind at 1 in E2; match type of E2 with rbind ?x _ = _ => destruct x as [[? ?]| | |]; try discriminate; cbn [rbind] in E2 end).
    injection E2 as <- _. unfold vchunk_of_large, SZ_MACRO. lia. }
  destruct K as (K & ->).
  repeat (unfold bind at 1 in E; match type of E with rbind ?x _ = _ => destruct x as [[? ?]| | |]; try discriminate; cbn [rbind] in E end).
  injection E as <- <-. split; [reflexivity|]. unfold vsize, get_size, large_of, SZ_LARGE, loadn. rewrite R. replace (b + 47 + 1 - 16) with (b + 32) by lia.
  change (Z.of_nat 7) with 7. rewrite K. eauto.
Qed.

Lemma request_size g gr n s v s' : request_mem g gr n s = Ok (v, s') -> v <> 0 -> exists z, vsize v s' = Ok (z, s').
Proof.
  intros E Hv. unfold request_mem in E. destruct (negb (csrc g)); [injection E as <- _; congruence|]. cbv zeta in E.
  unfold bind at 1 in E. destruct (source_request gr _ s) as [[b s1]| | |]; try discriminate. cbn [rbind] in E.
  destruct (b =? 0); [injection E as <- _; congruence|]. unfold bind at 1 in E. destruct (prepare_macro_bloc g b s1) as [[w s2]| | |] eqn:E2; try discriminate.
  cbn [rbind] in E. unfold bind, modst in E. cbn [rbind ret] in E. injection E as <- <-. destruct (prepare_size _ _ _ _ _ E2) as (_ & z & Ez).
  eapply vsize_acc; [exact Ez|reflexivity].
Qed.

(** A huge request that the source refuses. *)
Definition refused (g : cfg) (gr : option Z) (d n : Z) : Prop := n <> 0 /\ is_huge g (asz d n) = true /\ gr = None.

Lemma request_nonzero g gr n s v s' : request_mem g (Some gr) n s = Ok (v, s') -> csrc g = true -> 0 < gr -> v <> 0.
Proof.
  intros E Hc Hg. unfold request_mem in E. rewrite Hc in E. cbn [negb] in E. cbv zeta in E. unfold bind at 1 in E.
  destruct (source_request (Some gr) _ s) as [[b s1]| | |] eqn:E1; try discriminate. cbn [rbind] in E.
  assert (b = gr).
  { unfold source_request in E1. unfold bind at 1 in E1. cbn [modst rbind] in E1. unfold bind in E1.
    destruct (setup_macro_bloc _ _ _) as [[u s2]| | |]; try discriminate. injection E1 as <- _. reflexivity. }
  subst b. destruct (Z.eqb_spec gr 0); [lia|]. unfold bind at 1 in E. destruct (prepare_macro_bloc g gr s1) as [[w s2]| | |] eqn:E2; try discriminate.
  cbn in E. injection E as <- _. destruct (prepare_size _ _ _ _ _ E2) as (-> & _). lia.
Qed.

Lemma alloc_same k fuel g gr d n s : (forall b, csrc g = true -> gr = Some b -> 0 < b) -> (k_halloc k = true -> ~ refused g gr d n) ->
  hsame (alloc_align_h k fuel g gr d n s) (alloc_align fuel g gr d n s).
Proof.
  intros Hg Hr. rewrite alloc_assoc, alloc_h_assoc. destruct (Z.eqb_spec n 0) as [|Hn]; [apply hs_erase, er_ret|].
  destruct (is_huge g (asz d n)) eqn:Eh.
  - apply hs_bind_s; [apply er_request|]. intros v s1 E. destruct (k_halloc k) eqn:Ek; [|apply (finish_same _ _ _ _ _ 0); right; reflexivity].
    destruct gr as [b|]; [|exfalso; apply Hr; repeat split; auto].
    assert (Hc : csrc g = true) by (unfold is_huge in Eh; destruct (csrc g); [reflexivity|discriminate]).
    destruct (request_size _ _ _ _ _ _ E (request_nonzero _ _ _ _ _ _ E Hc (Hg b Hc eq_refl))) as (z & Ez).
    apply (finish_same _ _ _ _ _ z). left. exact Ez.
  - apply hs_bind_s; [apply er_fetch|]. intros c s1 E. destruct (c =? 0); [apply hs_erase, er_ret|].
    apply hs_bind_s; [apply er_up|]. intros v s2 Ep. destruct (pick_size _ _ _ _ _ _ Ep) as (z & Ez). apply (finish_same _ _ _ _ _ z). left. exact Ez.
Qed.

(** With the hook of huge allocations, a refused huge request reads the header of NULL. *)
Lemma alloc_refused k fuel g d n s : k_halloc k = true -> refused g None d n -> accb (srng s) (-15) 7 = false ->
  alloc_align_h k fuel g None d n s = UB /\ alloc_align fuel g None d n s = Ok (0, s).
Proof.
  intros Hk (Hn & Hh & _) Ha. rewrite alloc_assoc, alloc_h_assoc. destruct (Z.eqb_spec n 0) as [|_]; [contradiction|]. rewrite Hh.
  assert (Hc : csrc g = true) by (unfold is_huge in Hh; destruct (csrc g); [reflexivity|discriminate]).
  assert (E : request_mem g None (asz d n) s = Ok (0, s)).
  { unfold request_mem. rewrite Hc. reflexivity. }
  assert (Eh : exists l, request_mem_h k g None (asz d n) s = Ok (0, s, l)).
  { pose proof (er_request k g None (asz d n) s) as K. rewrite E in K. exact K. }
  destruct Eh as (l & Eh). assert (Ep : forall s, setup_chunk_padded 0 d s = Ok (0, s)).
  { intros s0. rewrite padded_eq. unfold pads. rewrite Z.eqb_refl. destruct (1 <? d); reflexivity. }
  split.
  - unfold hbind at 1. rewrite Eh. cbn [rbind]. unfold finish_h. rewrite Hk. cbn [hook]. unfold hbind at 1. unfold hbind at 1. unfold hook_ptr.
    unfold hbind at 1. unfold up at 1.
    assert (W : (if 1 <? d then setup_chunk_padded 0 d else ret 0) s = Ok (0, s)) by (destruct (1 <? d); [apply Ep|reflexivity]).
    rewrite W. cbn [rbind hret]. unfold hbind at 1. unfold up at 1. unfold vsize, get_size, loadn. change (large_of 0) with (-15). change (Z.of_nat 7) with 7. rewrite Ha. reflexivity.
  - unfold bind at 1. rewrite E. cbn [rbind]. unfold finish, bind. destruct (1 <? d); [rewrite Ep|]; reflexivity.
Qed.

(** ** Reallocation *)
Lemma hs_bind {A B} (x : H A) (y : M A) (f : A -> H B) (h : A -> M B) s : hsame (x s) (y s) ->
  (forall a, erases (f a) (h a)) -> (forall a, resp (h a)) -> hsame (hbind x f s) (bind y h s).
Proof.
  intros H1 H2 H3. unfold bind, hbind. unfold hsame in H1. destruct (y s) as [[a s1]| | |]; cbn [rbind].
  - destruct H1 as (l & t & -> & E). cbn [rbind]. specialize (H2 a t). pose proof (H3 a _ _ E) as R. unfold erase in H2. unfold agree in R. unfold hsame.
    destruct (h a t) as [[b s2]| | |], (h a s1) as [[b' s2']| | |]; cbn [rbind]; try contradiction.
    + destruct H2 as (l2 & ->). cbn. destruct R as (<- & R). eauto.
    + rewrite H2. reflexivity.
    + rewrite H2. reflexivity.
    + rewrite H2. reflexivity.
  - rewrite H1. reflexivity.
  - rewrite H1. reflexivity.
  - rewrite H1. reflexivity.
Qed.
Definition keeps (g : cfg) (old n : Z) : M bool :=
  if (n <=? old) && (sub64 old n <=? cthresh g)
  then (if cfactor g =? 0 then ub else ret (sub64 old n <=? old / cfactor g)) else ret false.
Lemma realloc_same k fuel g gr h p n s : (forall b, csrc g = true -> gr = Some b -> 0 < b) -> (k_halloc k = true -> ~ refused g gr h n) ->
  hsame (chain_realloc_h k fuel g gr h p n s) (chain_realloc fuel g gr h p n s).
Proof.
  intros Hg Hr. unfold chain_realloc_h, chain_realloc. destruct ((p =? 0) && (n =? 0)); [apply hs_erase, er_ret|].
  destruct (p =? 0); [apply alloc_same; assumption|]. destruct (n =? 0); [apply hs_erase, er_bind; [apply er_free|intros _; apply er_ret]|].
  apply hs_bind_s; [apply er_up|]. intros v s1 _. destruct (v =? 0); [destruct (cstrict g); apply hs_erase; [apply er_up|apply er_ret]|].
  cbv zeta. rewrite <- bind_assoc. apply hs_bind_s; [apply er_up|]. intros us s2 _. apply hs_bind_s; [apply er_up|]. intros keep s3 _.
  destruct keep; [apply hs_erase, er_ret|]. apply hs_bind; [apply alloc_same; assumption| |].
  - intros r. apply er_bind; [apply er_up|intros _]. apply er_bind; [apply er_free|intros _; apply er_ret].
  - intros r. apply resp_bind; [destruct (r =? 0); [apply resp_ret|apply resp_memcpy]|intros _]. apply resp_bind; [apply resp_free|intros _; apply resp_ret].
Qed.

(** ** Any call *)
Definition quiet (k : hooks) (g : cfg) (s : st) (c : op) : Prop :=
  match c with
  | OAlloc d n gr | ORealloc d _ n gr => k_halloc k = true -> ~ refused g gr d n
  | OPurge => k_flush k = true -> rqh s = 0
  | _ => True
  end.
Definition grant_pos (g : cfg) (c : op) : Prop :=
  match c with OAlloc _ _ gr | ORealloc _ _ _ gr => forall b, csrc g = true -> gr = Some b -> 0 < b | _ => True end.

Lemma exec_same k fuel g c s : grant_pos g c -> quiet k g s c -> hsame (exec_h k fuel g c s) (exec fuel g c s).
Proof.
  intros Hg Hq. destruct c as [d n gr|p|h p n gr|b z|x v|p| |m]; cbn [exec_h exec quiet grant_pos] in *; try (apply hs_erase, er_up).
  - apply alloc_same; [exact Hg|exact Hq].
  - apply hs_erase, er_bind; [apply er_free|intros _; apply er_ret].
  - apply realloc_same; [exact Hg|exact Hq].
  - apply hs_erase. destruct (k_flush k) eqn:Ek.
    + destruct (purge_empty k fuel fuel g s (Hq eq_refl)) as (E1 & E2). unfold hbind, bind. rewrite E1, E2. cbn. eauto.
    + apply er_bind; [apply er_purge, Ek|intros _; apply er_ret].
Qed.
