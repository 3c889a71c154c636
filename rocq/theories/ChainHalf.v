(** Requests of half the address space and more (C14). *)
From Verif Require Import Word Res Mem SizeClassModel SizeClassProofs ChainModel Wp ChainInv ChainZip ChainList ChainFl ChainPrim ChainFind ChainSplit ChainMerge ChainOps ChainAlloc ChainFree ChainSpec ChainCore ChainCoreFree ChainStep ChainRealloc ChainQueue ChainRefill ChainFuel ChainTrace ChainEv ChainProps ChainWalk ChainCap ChainLists.
From Coq Require Import ZArith List Bool Lia.
Import ListNotations.
Open Scope Z_scope.

Lemma calc_half k : S63 - 64 <= k < W64 - 16 -> calc_chunk_size k = k + 16.
Proof. intros H. rewrite S63_val, W64_val in H. unfold calc_chunk_size. rewrite add64_small by (rewrite W64_val; lia). cbv zeta. destruct (Z.leb_spec (k + 16) 32); lia. Qed.

Lemma fast_half z : S63 <= z < W64 -> get_free_list_fast z = Ok 43.
Proof.
  intros H. rewrite S63_val, W64_val in H. unfold get_free_list_fast, reverse_analytic, MACRO_BLOC.
  destruct (Z.leb_spec z 1024); [lia|]. destruct (Z.ltb_spec 2097152 z); [|lia].
  rewrite tab_ok by lia. rewrite FREE_SIZES_fsz by lia. rewrite fsz_top by lia. cbn [rbind].
  unfold s64. rewrite S63_val, W64_val. destruct (Z.ltb_spec z 9223372036854775808); [lia|]. destruct (Z.ltb_spec (-1) (z - 18446744073709551616)); [lia|reflexivity].
Qed.

(** List 42 holds the chunks of exactly 2 MB; nothing is filed in list 43. *)
Lemma class_42 c : 32 <= c < AMAX -> (insert_class c = Ok 42 <-> c = MACRO_BLOC).
Proof.
  intros H. split.
  - intros E. destruct (Z_le_gt_dec c MACRO_BLOC) as [L|L].
    + destruct (insert_small c) as (j & Ej & _ & Hlo & _); [lia|]. assert (j = 42) by congruence. subst j. change (fsz 42) with MACRO_BLOC in Hlo. lia.
    + rewrite insert_big in E by (rewrite S63_val; unfold MACRO_BLOC in *; lia). discriminate.
  - intros ->. vm_compute. reflexivity.
Qed.

(** The search for a chunk of 2^63 bytes or more takes the first chunk of exactly 2 MB. *)
Lemma find_half g s A F k fuel : Inv g s A F -> S63 - 16 <= k < W64 - 16 -> (length (frees A) < fuel)%nat ->
  wp (find_free_chunk fuel g k) s (fun r s' =>
    (r = 0 /\ s' = s /\ forall a, ~ In (a, MACRO_BLOC) (frees A)) \/
    (r <> 0 /\ exists a, In (a, MACRO_BLOC) (frees A))).
Proof.
  intros IV Hk Hfuel. unfold find_free_chunk. assert (B1 := S63_val). assert (B2 := W64_val).
  rewrite calc_half by lia. set (size := k + 16). assert (Hs : S63 <= size < W64) by (unfold size; lia).
  assert (Es : s64 size < 0) by (unfold s64; destruct (Z.ltb_spec size S63); lia).
  apply wp_bind. eapply wp_lift; [exact (fast_half _ Hs)|]. cbv zeta.
  unfold first_non_empty. rewrite flist_id, nb_default.
  apply wp_bind. eapply wp_mono; [apply (first_non_empty_loop_spec g s A F IV (Z.to_nat (44 - 43)) 43); lia|].
  rewrite Z2Nat.id by lia. intros l s' (-> & HL). apply wp_bind.
  assert (E43 : F 43 = []).
  { destruct (F 43) as [|a L] eqn:EF; [reflexivity|exfalso]. destruct (list_elem g s A F IV 43 a) as (c & Hc & Hcl); [lia|rewrite EF; left; reflexivity|].
    destruct (free_hdr g s A F IV a c Hc) as (_ & Rc & _). destruct (insert_class_ok c Rc) as (i & Ei & _ & Hi). congruence. }
  assert (El : l = 0). { destruct HL as [(H & _)|(j & Hj & _ & _ & HF & _)]; [exact H|]. exfalso. apply HF. replace j with 43 by lia. exact E43. }
  subst l. cbn [Z.eqb]. apply wp_ret. apply wp_bind. cbn [Z.eqb andb].
  assert (N0 : flist g 43 =? flist g 0 = false) by (apply Z.eqb_neq; unfold flist; lia). rewrite N0. cbn [negb].
  replace (flist g 43 - 32) with (flist g 42) by (unfold flist; lia).
  eapply wp_mono; [apply (find_adapted_spec g s A F IV 42 (s64 size) fuel); [lia|exact Hfuel]|].
  intros r s' (-> & [(-> & K)|(K1 & c & K2 & K3 & K4)]).
  - cbn [Z.eqb]. apply wp_bind, wp_ret, wp_ret. left. split; [reflexivity|]. split; [reflexivity|].
    intros a Ha. destruct (free_hdr g s A F IV a _ Ha) as (_ & Rc & _).
    assert (HI : In a (F 42)) by (apply (fl_in _ _ _ _ (iv_fl _ _ _ _ IV)); [lia|]; exists MACRO_BLOC; split; [exact Ha|apply class_42; [exact Rc|reflexivity]]).
    specialize (K a MACRO_BLOC HI Ha). unfold MACRO_BLOC in K. lia.
  - destruct (Z.eqb_spec r 0); [contradiction|]. apply wp_bind.
    assert (Ec : c = MACRO_BLOC).
    { destruct (list_elem g s A F IV 42 r ltac:(lia) K2) as (c' & Hc' & Hcl). destruct (free_hdr g s A F IV r c' Hc') as (E1 & Rc & _).
      destruct (free_hdr g s A F IV r c K3) as (E2 & _). assert (Q : c' = c) by congruence. rewrite Q in Rc, Hcl. exact (proj1 (class_42 c Rc) Hcl). }
    subst c. assert (Q := K3). apply frees_zip in Q as (S1 & b & z & l1 & l2 & S2 & EA & Er).
    assert (IV' := IV). rewrite EA in IV'. eapply wp_mono; [eapply remove_spec; [exact IV'|exact Er]|].
    intros _ s' _. apply wp_ret. right. split; [exact K1|]. exists r. exact K3.
Qed.

(** ** What follows the search *)
Definition nof {X} (x : M X) : Prop := forall s, x s <> OutOfFuel.
Lemma nof_ret {X} (a : X) : nof (ret a). Proof. intros s. discriminate. Qed.
Lemma nof_bind {X Y} (x : M X) (f : X -> M Y) : nof x -> (forall a, nof (f a)) -> nof (bind x f).
Proof. intros H K s. unfold bind. specialize (H s). destruct (x s) as [[a s']| | |]; cbn; try discriminate; [apply K|contradiction]. Qed.
Lemma nof_load a n : nof (loadn a n). Proof. intros s. unfold loadn. destruct (accb _ _ _); discriminate. Qed.
Lemma nof_store a n v : nof (storen a n v). Proof. intros s. unfold storen. destruct (accb _ _ _); discriminate. Qed.
Lemma nof_assume b : nof (assume b). Proof. intros s. destruct b; discriminate. Qed.
Lemma nof_abort {X} : nof (@abort X). Proof. intros s. discriminate. Qed.
Ltac nof := repeat (first [apply nof_ret | apply nof_load | apply nof_store | apply nof_assume | apply nof_abort | apply nof_bind; [|intros] |
   match goal with |- nof (if ?b then _ else _) => destruct b end]).
Lemma nof_setup p z v : nof (setup_chunk p z v).
Proof. unfold setup_chunk, set_size, set_addr, set_state, set_type, set_magic, set_prevsize. nof. Qed.
Lemma nof_split v n : nof (split_free_bloc v n).
Proof. unfold split_free_bloc, vsize, get_size, get_ptr, get_type, vprevsize, get_prevsize, next_chunk, vsize, get_size, set_prevsize. repeat (nof; try apply nof_setup). Qed.

(** A size read from a header is below 2^56: the check that follows the split always fails. *)
Lemma dead_bind {X Y} (x : M X) (f : X -> M Y) s : nof x -> (forall a s', x s = Ok (a, s') -> f a s' = UB \/ f a s' = Abort) -> bind x f s = UB \/ bind x f s = Abort.
Proof. intros H K. unfold bind. specialize (H s). destruct (x s) as [[a s']| | |]; cbn; auto. contradiction. Qed.

Lemma tail_half {X} (K : Z * Z -> M X) c k s : 2 ^ 56 <= calc_chunk_size k ->
  let x := (cs <- get_size c ;; assume (32 <=? cs) ;;; vr <- split_free_bloc (vchunk_of_large c) k ;;
        vs <- vsize (fst vr) ;; assume (calc_chunk_size k <=? vs) ;;; K vr) in
  x s = UB \/ x s = Abort.
Proof.
  intros HK. cbv zeta. apply dead_bind; [apply nof_load|]. intros cs s1 _. apply dead_bind; [apply nof_assume|]. intros _ s2 _.
  apply dead_bind; [apply nof_split|]. intros vr s3 _. apply dead_bind; [apply nof_load|]. intros vs s4 E.
  unfold vsize, get_size, loadn in E. destruct (accb _ _ _); [|discriminate]. assert (Ev : ld (smem s3) (large_of (fst vr)) 7 = vs) by congruence.
  assert (R := ld7_range (smem s3) (large_of (fst vr))). rewrite Ev in R. change (2 ^ 56) with 72057594037927936 in HK.
  apply dead_bind; [apply nof_assume|]. intros u s5 E5. exfalso. assert (L : (calc_chunk_size k <=? vs) = false) by (apply Z.leb_gt; lia). rewrite L in E5. discriminate.
Qed.

Lemma half_bd d n : (d = 0 \/ exists k, 0 <= k /\ d = 2 ^ k) -> 0 < n -> asked d n < 2 ^ 64 - 16 ->
  (if 1 <? d then add64 n d else n) = asked d n.
Proof.
  intros HD Hn HA. assert (0 <= d) by (destruct HD as [->|(k & Hk & ->)]; lia). unfold asked in *. destruct (Z.ltb_spec 1 d); [|reflexivity].
  apply add64_small. rewrite W64_val. change (2 ^ 64) with 18446744073709551616 in HA. lia.
Qed.

Lemma half_null g s o d n gr fuel : reach g s o -> csrc g = false -> 0 < n -> (d = 0 \/ exists k, 0 <= k /\ d = 2 ^ k) ->
  2 ^ 63 - 64 <= asked d n < 2 ^ 64 - 16 -> (2 ^ 63 - 16 <= asked d n -> forall w, ~ In (w, 2097152) (all_free (smem s) o)) ->
  held o < Z.of_nat fuel -> step fuel g (OAlloc d n gr) s = Ok (0, clear_ev s).
Proof.
  intros R Hc Hn HD HA HF Hfuel. destruct (reach_good _ _ _ R) as (A & F & G).
  assert (C := core_clear _ _ _ _ _ (gd_core _ _ _ _ _ G)). assert (IV := co_inv _ _ _ _ _ C).
  assert (LF := frees_held _ _ _ _ _ G). assert (HL : (length (frees A) < fuel)%nat) by lia.
  rewrite (all_free_eq _ _ _ _ _ G) in HF.
  assert (E : wp (step fuel g (OAlloc d n gr)) s (fun r s' => r = 0 /\ s' = clear_ev s)).
  { unfold wp, step. cbn [exec]. change (wp (alloc_align fuel g gr d n) (clear_ev s) (fun r s' => r = 0 /\ s' = clear_ev s)).
    unfold alloc_align. destruct (Z.eqb_spec n 0) as [|_]; [lia|]. rewrite half_bd by (try assumption; lia). cbv zeta.
    unfold is_huge. rewrite Hc. cbn [andb]. set (k := asked d n) in *.
    change (2 ^ 63) with S63 in *. change (2 ^ 64) with W64 in *. assert (B1 := S63_val). assert (B2 := W64_val).
    assert (RF : forall m s1, refill_mem g gr m s1 = Ok (false, s1)) by (intros; unfold refill_mem, request_mem; rewrite Hc; reflexivity).
    apply wp_bind. apply wp_mono with (Q := fun r s' => r = 0 /\ s' = clear_ev s).
    - destruct (Z_lt_dec k (S63 - 16)) as [L|L].
      + eapply wp_mono; [apply (find_chunk_spec g _ A F IV k fuel); [lia|exact HL]|].
        intros r s' [(-> & -> & _)|(_ & S1 & b & z & l1 & c & l2 & S2 & F' & EA & _ & Hle & _)]; [auto|exfalso].
        rewrite calc_half in Hle by lia.
        assert (HI : In (b + 32 + tot l1, c) (frees A)) by (rewrite EA; apply free_mid; reflexivity).
        destruct (free_hdr g _ A F IV _ _ HI) as (_ & Rc & _). lia.
      + eapply wp_mono; [apply (find_half g _ A F k fuel IV); [lia|exact HL]|].
        intros r s' [(-> & -> & _)|(_ & a & Ha)]; [auto|]. exfalso. exact (HF ltac:(lia) a Ha).
    - intros r s' (-> & ->). cbn [Z.eqb]. apply wp_bind, wp_bind. unfold wp at 1. rewrite RF. apply wp_ret. apply wp_ret. auto. }
  apply wp_run in E as (r & s' & E & -> & ->). exact E.
Qed.

Lemma half_killed g s o d n gr fuel w : reach g s o -> csrc g = false -> 0 < n -> (d = 0 \/ exists k, 0 <= k /\ d = 2 ^ k) ->
  2 ^ 63 - 16 <= asked d n < 2 ^ 64 - 16 -> In (w, 2097152) (all_free (smem s) o) ->
  held o < Z.of_nat fuel -> step fuel g (OAlloc d n gr) s = UB \/ step fuel g (OAlloc d n gr) s = Abort.
Proof.
  intros R Hc Hn HD HA HF Hfuel. destruct (reach_good _ _ _ R) as (A & F & G).
  assert (C := core_clear _ _ _ _ _ (gd_core _ _ _ _ _ G)). assert (IV := co_inv _ _ _ _ _ C).
  assert (LF := frees_held _ _ _ _ _ G). assert (HL : (length (frees A) < fuel)%nat) by lia.
  rewrite (all_free_eq _ _ _ _ _ G) in HF. unfold step. cbn [exec].
  unfold alloc_align. destruct (Z.eqb_spec n 0) as [|_]; [lia|]. rewrite half_bd by (try assumption; lia). cbv zeta.
  unfold is_huge. rewrite Hc. cbn [andb]. set (k := asked d n) in *.
  change (2 ^ 63) with S63 in *. change (2 ^ 64) with W64 in *. assert (B1 := S63_val). assert (B2 := W64_val).
  destruct (wp_run _ _ _ (find_half g _ A F k fuel IV ltac:(lia) HL)) as (c & s1 & E & [(_ & _ & K)|(Hne & _)]); [exfalso; exact (K w HF)|].
  assert (NC : (c =? 0) = false) by (apply Z.eqb_neq; exact Hne).
  assert (EB : forall X (f : Z -> M X), bind (find_free_chunk fuel g k) f (clear_ev s) = f c s1) by (intros; unfold bind; rewrite E; reflexivity).
  rewrite EB, NC. assert (ER : forall X (f : Z -> M X), bind (ret c) f s1 = f c s1) by (intros; reflexivity). rewrite ER, NC.
  apply (tail_half (fun vr => (if snd vr =? 0 then ret tt else free_list_insert g (large_of (snd vr)) AtStart) ;;;
    v <- (if 1 <? d then setup_chunk_padded (fst vr) d else ret (fst vr)) ;; ret (chunk_body v)) c k s1). rewrite calc_half by lia. change (2 ^ 56) with 72057594037927936. lia.
Qed.

(** With a memory source such a request is huge: a refusal is passed on. *)
Lemma half_refused g s d n fuel : csrc g = true -> 0 < n -> (d = 0 \/ exists k, 0 <= k /\ d = 2 ^ k) ->
  2 ^ 63 - 64 <= asked d n < 2 ^ 64 - 16 -> step fuel g (OAlloc d n None) s = Ok (0, clear_ev s).
Proof.
  intros Hc Hn HD HA. unfold step. cbn [exec]. unfold alloc_align. destruct (Z.eqb_spec n 0) as [|_]; [lia|]. rewrite half_bd by (try assumption; lia). cbv zeta.
  change (2 ^ 63) with S63 in *. change (2 ^ 64) with W64 in *. assert (B1 := S63_val). assert (B2 := W64_val).
  unfold is_huge. rewrite Hc, calc_half by lia. destruct (Z.ltb_spec HUGE_LIMIT (asked d n + 16)) as [_|L]; [|unfold HUGE_LIMIT in L; lia]. cbn [andb].
  assert (EQ : forall s1, request_mem g None (asked d n) s1 = Ok (0, s1)) by (intros; unfold request_mem; rewrite Hc; reflexivity).
  assert (EP : forall s1, setup_chunk_padded 0 d s1 = Ok (0, s1)) by (intros; unfold setup_chunk_padded; change (0 =? 0) with true; cbn [negb]; rewrite andb_false_r; reflexivity).
  unfold bind. rewrite EQ. cbn [rbind]. destruct (1 <? d); [rewrite EP|]; reflexivity.
Qed.
