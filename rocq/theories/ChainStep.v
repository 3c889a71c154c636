(** Every valid call preserves the invariant (with blocks and remote free queue). *)
From Verif Require Import Word Res Mem SizeClassModel SizeClassProofs ChainModel Wp ChainInv ChainZip ChainList ChainFl ChainPrim ChainFind ChainSplit ChainMerge ChainOps ChainAlloc ChainFree ChainSpec ChainCore ChainCoreFree.
From Coq Require Import ZArith List Bool Lia Permutation.
Import ListNotations.
Open Scope Z_scope.

(** ** Writes by the program *)
Lemma segmeta_scratch g r m A sg x : World g r m A -> In sg A -> segmeta sg x -> scratch g A x.
Proof.
  intros W HS HM. right. exists sg. split; [exact HS|]. assert (SO := w_segok _ _ _ _ W _ HS).
  split; [exact (segmeta_range _ _ _ _ SO HM)|exact (segmeta_not_live _ _ _ _ SO HM)].
Qed.

Lemma inv_write g s A F m' : Inv g s A F -> chg (smem s) m' (fun x => ~ scratch g A x) -> Inv g (set_mem s m') A F.
Proof.
  intros [W FL HB] HC. constructor; cbn [smem srng sbase set_mem].
  - eapply World_weaken_chg; [exact W|]. eapply chg_weaken; [exact HC|]. intros x Hx sg HS HM. apply Hx.
    eapply segmeta_scratch; eauto.
  - eapply flok_frame; [exact FL|exact HC| |].
    + intros x Hx. destruct (Z_lt_dec x (cpool g)); [left; lia|]. destruct (Z_le_dec (cpool g + POOL_SIZE) x); [right; lia|].
      exfalso. apply Hx. left. lia.
    + intros x w c Hx Hw. destruct (Z_lt_dec x (w + 16)); [left; lia|]. destruct (Z_le_dec (w + 32) x); [right; lia|].
      exfalso. apply Hx. apply (body_scratch _ _ _ _ W). right. exists w, c. apply frees_in_cells in Hw. split; [exact Hw|].
      destruct (w_cell _ _ _ _ W _ _ Hw) as (_ & _ & _ & _ & _ & H & _). lia.
  - exact HB.
Qed.

Lemma core_write g s B A F m' : Core g s B A F -> chg (smem s) m' (fun x => ~ scratch g A x) -> Core g (set_mem s m') B A F.
Proof.
  intros C HC. destruct C as [c1 c2 c3 c4 c5 c6 c7 c8]. constructor; auto. apply inv_write; auto.
Qed.
Lemma core_perm g s B B' A F : Core g s B A F -> Permutation B B' -> Core g s B' A F.
Proof. intros C HP. destruct C as [c1 c2 c3 c4 c5 c6 c7 c8]. constructor; auto. eapply Permutation_trans; eauto. Qed.
Lemma core_rq g s B A F h t : Core g s B A F -> Core g (set_rq s h t) B A F.
Proof. intros C. destruct C as [[i1 i2 i3] c2 c3 c4 c5 c6 c7 c8]. constructor; auto. constructor; auto. Qed.
Lemma core_clear g s B A F : Core g s B A F -> Core g (clear_ev s) B A F.
Proof. intros C. destruct C as [[i1 i2 i3] c2 c3 c4 c5 c6 c7 c8]. constructor; auto. constructor; auto. Qed.

(** ** Usable size *)
Lemma usable_spec g s A p n d e (Q : Z -> st -> Prop) : World g (srng s) (smem s) A -> In (p, n, d, e) (used A) ->
  Q (e - p) s -> wp (usable_size p) s Q.
Proof.
  intros W HU H. destruct (used_zip _ _ _ _ _ HU) as (S1 & b & z & l1 & c & l2 & S2 & EA & Ee). subst A.
  assert (HC := world_chunk _ _ _ _ _ _ _ _ _ _ _ _ W eq_refl).
  destruct HC as (H1 & H2 & _ & (K1 & K2 & K3 & K4 & K5 & _) & H7 & H8 & H9 & H10 & _).
  unfold usable_size. destruct (Z.eqb_spec p 0); [lia|]. apply wp_bind.
  eapply live_chunk_unpadded; [exact W|reflexivity|].
  destruct (Z.eqb_spec (b + 32 + tot l1 + 15) 0); [lia|].
  apply wp_bind. eapply wp_vsize; [exact W|reflexivity|]. apply wp_ret.
  unfold SZ_LARGE. replace (w64 (c - 16 - (p - (b + 32 + tot l1 + 15)) + 1)) with (e - p); [exact H|].
  unfold w64. assert (BW := W64_val). rewrite Z.mod_small; lia.
Qed.

(** ** The remote free queue *)
Fixpoint qok (m : mem) (l : list Z) : Prop :=
  match l with [] => True | p :: l' => ld m p 8 = hd 0 l' /\ ld m (p + 8) 8 = p /\ qok m l' end.
Definition Queue (s : st) (l : list Z) : Prop := rqh s = hd 0 l /\ rqt s = last l 0 /\ qok (smem s) l.

Lemma qok_frame m m' l : (forall p x, In p l -> p <= x < p + 16 -> m' x = m x) -> qok m l -> qok m' l.
Proof.
  induction l as [|p l IH]; intros H Q; cbn [qok] in *; [exact I|]. destruct Q as (Q1 & Q2 & Q3).
  split; [|split].
  - rewrite <- Q1. apply ld_ext. intros x Hx. apply (H p); [left; reflexivity|cbn in Hx; lia].
  - rewrite <- Q2 at 2. apply ld_ext. intros x Hx. apply (H p); [left; reflexivity|cbn in Hx; lia].
  - apply IH; [|exact Q3]. intros q x Hq. apply H. right. exact Hq.
Qed.

Record Good (g : cfg) (s : st) (o : obs) (A : list seg) (F : Z -> list Z) : Prop := {
  gd_core : Core g s (live o ++ pend o) A F;
  gd_segs : segs o = map segr A;
  gd_queue : Queue s (map bp (pend o))
}.

Lemma held_bytes o A : segs o = map segr A -> held o = bytes A.
Proof. intros E. unfold held, bytes. rewrite E, map_map. reflexivity. Qed.

Lemma core_nodup g s B A F : Core g s B A F -> NoDup (map bp B).
Proof.
  intros C. assert (N := used_nodup _ _ _ _ (iv_w _ _ _ _ (co_inv _ _ _ _ _ C))).
  eapply Permutation_NoDup; [apply Permutation_map; exact (co_live _ _ _ _ _ C)|].
  rewrite map_map. exact N.
Qed.
Lemma core_pos g s B A F p n d : Core g s B A F -> In (mkBlk p n d) B -> 0 < p.
Proof.
  intros C H. destruct (core_in _ _ _ _ _ _ _ _ C H) as (e & HU).
  assert (W := iv_w _ _ _ _ (co_inv _ _ _ _ _ C)).
  destruct (used_in _ _ _ _ _ _ _ _ W HU) as (sg & H1 & H2 & _). destruct (w_segok _ _ _ _ W _ H1) as (K & _). lia.
Qed.

Lemma rm_app p l1 l2 : rm p (l1 ++ l2) = rm p l1 ++ rm p l2.
Proof. apply filter_app. Qed.
Lemma nodup_not_other p n d (l1 l2 : list blk) b : NoDup (map bp (l1 ++ l2)) -> In (mkBlk p n d) l1 -> In b l2 -> bp b <> p.
Proof.
  intros N H1 H2 E. rewrite map_app in N.
  induction l1 as [|x l1 IH]; [contradiction|]. cbn [map app] in N. inversion N as [|? ? N1 N2]; subst.
  destruct H1 as [->|H1]; [|exact (IH N2 H1)].
  apply N1. apply in_or_app. right. cbn [bp] in *. apply in_map_iff. exists b. auto.
Qed.
Lemma rm_pend g s (o : obs) A F p n d : Core g s (live o ++ pend o) A F -> In (mkBlk p n d) (live o) ->
  rm p (live o ++ pend o) = rm p (live o) ++ pend o.
Proof.
  intros C H. rewrite rm_app. f_equal. apply rm_other. intros b Hb.
  eapply nodup_not_other; [eapply core_nodup; exact C|exact H|exact Hb].
Qed.

(** The queue survives operations that keep the pending blocks. *)
Lemma queue_trans g s (o : obs) A F s' A' out evs :
  Core g s (live o ++ pend o) A F -> Queue s (map bp (pend o)) -> trans s A s' A' out evs ->
  (forall b, In b (pend o) -> ~ out (bp b)) -> Queue s' (map bp (pend o)).
Proof.
  intros C (Q1 & Q2 & Q3) (_ & _ & T3 & T4 & T5 & _) HO. split; [congruence|]. split; [congruence|].
  eapply qok_frame; [|exact Q3]. intros p x Hp Hx. apply in_map_iff in Hp as ([p' n d] & E & Hp). cbn [bp] in E. subst p'.
  destruct (core_in _ _ _ _ _ p n d C) as (e & HU); [apply in_or_app; right; exact Hp|].
  destruct (T5 p n d e HU) as (_ & K); [exact (HO _ Hp)|]. apply K.
  destruct (used_in _ _ _ _ _ _ _ _ (iv_w _ _ _ _ (co_inv _ _ _ _ _ C)) HU) as (_ & _ & _ & H & _). lia.
Qed.

(** ** Allocation, free *)
Section Step.
  Context (fuel : nat) (g : cfg) (s : st) (o : obs) (A : list seg) (F : Z -> list Z).
  Hypothesis GD : Good g s o A F.
  Let s0 := clear_ev s.
  Let C0 : Core g s0 (live o ++ pend o) A F := core_clear _ _ _ _ _ (gd_core _ _ _ _ _ GD).
  Let Q0 : Queue s0 (map bp (pend o)) := gd_queue _ _ _ _ _ GD.

  (** Result of a call: the invariant holds again for the observation after the call; blocks outside [out]
      keep their place and content; other memory is not written. *)
  Definition post (c : op) (out : Z -> Prop) (r : Z) (s' : st) : Prop :=
    exists A' F', Good g s' (next o c r (sevs s')) A' F' /\
      (forall q n d e, In (q, n, d, e) (used A) -> ~ out q ->
         In (q, n, d, e) (used A') /\ forall x, q <= x < e -> smem s' x = smem s x) /\
      (forall x, (forall b z, In (b, z) (srng s) \/ In (EGet b z) (sevs s') -> ~ b <= x < b + z) -> smem s' x = smem s x).

  Lemma step_alloc d n gr : valid g s o (OAlloc d n gr) -> fuel_ok g o (OAlloc d n gr) fuel ->
    wp (exec fuel g (OAlloc d n gr)) s0 (post (OAlloc d n gr) (fun _ => False)).
  Proof.
    intros V HF. cbn [exec]. cbn [valid] in V. unfold fuel_ok in HF. cbn [extra] in HF.
    rewrite (held_bytes _ _ (gd_segs _ _ _ _ _ GD)) in HF.
    eapply wp_mono; [eapply (alloc_core fuel g s0 _ A F o gr d n); [exact C0|exact (gd_segs _ _ _ _ _ GD)|exact V|exact HF]|].
    intros r s' (A' & F' & evs & C' & T & _). exists A', F'.
    assert (T' := T). destruct T as (T1 & T2 & T3 & T4 & T5 & T6). cbn [sevs clear_ev s0] in T1. rewrite app_nil_r in T1.
    split; [|split].
    - constructor; cbn [next live pend segs].
      + destruct (r =? 0); exact C'.
      + rewrite T1, (gd_segs _ _ _ _ _ GD). symmetry. exact T2.
      + eapply queue_trans; [exact C0|exact Q0|exact T'|auto].
    - intros q m dd e HI HO. exact (T5 q m dd e HI HO).
    - rewrite T1. exact T6.
  Qed.

  Lemma rm_zero : rm 0 (live o) = live o.
  Proof.
    apply rm_other. intros [p n d] Hb. assert (H := core_pos _ _ _ _ _ p n d C0). cbn [bp]. specialize (H ltac:(apply in_or_app; left; exact Hb)). lia.
  Qed.

  Lemma step_free p : valid g s o (OFree p) -> fuel_ok g o (OFree p) fuel ->
    wp (exec fuel g (OFree p)) s0 (post (OFree p) (fun q => q = p)).
  Proof.
    intros V HF. cbn [exec]. cbn [valid] in V. unfold fuel_ok in HF. cbn [extra] in HF.
    rewrite (held_bytes _ _ (gd_segs _ _ _ _ _ GD)) in HF.
    destruct V as [->|(n & d & V)].
    { apply wp_bind. apply wp_ret. apply wp_ret. exists A, F. split; [|split; [auto|auto]].
      constructor; cbn [next live pend segs].
      - rewrite rm_zero. exact C0.
      - exact (gd_segs _ _ _ _ _ GD).
      - exact Q0. }
    apply wp_bind. eapply wp_mono; [eapply (free_core fuel g s0 _ A F p n d); [exact C0|apply in_or_app; left; exact V|lia]|].
    intros _ s' (A' & F' & evs & C' & T & _). apply wp_ret. exists A', F'.
    assert (T' := T). destruct T as (T1 & T2 & T3 & T4 & T5 & T6). cbn [sevs clear_ev s0] in T1. rewrite app_nil_r in T1.
    split; [|split].
    - constructor; cbn [next live pend segs].
      + rewrite <- (rm_pend _ _ _ _ _ _ _ _ C0 V). exact C'.
      + rewrite T1, (gd_segs _ _ _ _ _ GD). symmetry. exact T2.
      + eapply queue_trans; [exact C0|exact Q0|exact T'|]. intros b Hb.
        eapply nodup_not_other; [eapply core_nodup; exact C0|exact V|exact Hb].
    - intros q m dd e HI HO. exact (T5 q m dd e HI HO).
    - rewrite T1. exact T6.
  Qed.

  (** ** Writes *)
  Lemma used_two u v : In u (used A) -> In v (used A) -> u = v \/ esep u v.
  Proof.
    intros H1 H2. assert (S := used_sep _ _ _ _ (iv_w _ _ _ _ (co_inv _ _ _ _ _ C0))).
    destruct (ForallOrdPairs_In S _ _ H1 H2) as [K|[K|K]]; [auto|auto|]. right. unfold esep in *. tauto.
  Qed.

  Lemma step_write x v : valid g s o (OWrite x v) ->
    wp (exec fuel g (OWrite x v)) s0 (fun r s' => exists A' F',
      Good g s' (next o (OWrite x v) r (sevs s')) A' F' /\ A' = A /\ smem s' x mod 256 = v mod 256 /\
      forall y, y <> x -> smem s' y = smem s y).
  Proof.
    intros (p & n & d & u & s' & V1 & V2 & V3). cbn [exec]. apply wp_bind. apply wp_modst. apply wp_ret.
    destruct (core_in _ _ _ _ _ p n d C0) as (e & HU); [apply in_or_app; left; exact V1|].
    assert (W := iv_w _ _ _ _ (co_inv _ _ _ _ _ C0)).
    assert (US : wp (usable_size p) s (fun u s' => u = e - p)) by (eapply usable_spec; [exact W|exact HU|reflexivity]).
    unfold wp in US. rewrite V2 in US. subst u.
    assert (CH : chg (smem s) (sto (smem s) x 1 v) (fun y => y = x)).
    { apply chg_sto; [apply chg_refl|]. intros y Hy. cbn in Hy. lia. }
    exists A, F. split; [|split; [reflexivity|split]].
    - constructor; cbn [next live pend segs].
      + apply core_write; [exact C0|]. eapply chg_weaken; [exact CH|]. intros y ->. eapply used_not_scratch; [exact W|exact HU|lia].
      + exact (gd_segs _ _ _ _ _ GD).
      + destruct Q0 as (Q1 & Q2 & Q3). split; [exact Q1|]. split; [exact Q2|]. cbn [smem set_mem].
        eapply qok_frame; [|exact Q3]. intros q y Hq Hy. destruct (CH y) as [K|K]; [exact K|]. exfalso. subst y.
        apply in_map_iff in Hq as ([q' n' d'] & E & Hq). cbn [bp] in E. subst q'.
        destruct (core_in _ _ _ _ _ q n' d' C0) as (e' & HU'); [apply in_or_app; right; exact Hq|].
        assert (NE := nodup_not_other p n d _ _ _ (core_nodup _ _ _ _ _ C0) V1 Hq). cbn [bp] in NE.
        destruct (used_in _ _ _ _ _ _ _ _ W HU') as (_ & _ & _ & U & _).
        destruct (used_two _ _ HU HU') as [K|K]; [congruence|]. unfold esep, eend, eptr in K. cbn [fst snd] in K. lia.
    - cbn [smem set_mem]. cbn [sto]. unfold upd. rewrite Z.eqb_refl. apply Z.mod_mod. lia.
    - intros y Hy. destruct (CH y) as [K|K]; [exact K|contradiction].
  Qed.

  Lemma step_store m : valid g s o (OStore m) ->
    wp (exec fuel g (OStore m)) s0 (fun r s' => exists A' F',
      Good g s' (next o (OStore m) r (sevs s')) A' F' /\ A' = A /\ smem s' = m).
  Proof.
    intros V. cbn [exec]. apply wp_bind. apply wp_modst. apply wp_ret.
    assert (W := iv_w _ _ _ _ (co_inv _ _ _ _ _ C0)).
    assert (PR : forall x, (scratch g A x \/ exists q n d e, In (mkBlk q n d) (pend o) /\ In (q, n, d, e) (used A) /\ q <= x < e) -> m x = smem s x).
    { intros x Hx. apply V. split.
      - assert (K : exists b z, In (b, z) (srng s0) /\ b <= x < b + z).
        { destruct Hx as [Hx|(q & n & d & e & _ & HU & Hx)]; [exact (scratch_rng _ _ _ _ _ W Hx)|].
          destruct (used_in _ _ _ _ _ _ _ _ W HU) as (sg & J1 & J2 & J3 & J4 & J5 & J6). exists (gbase sg), (gsize sg). split; [exact (w_in_rng _ _ _ _ W _ J1)|lia]. }
        destruct K as (b & z & K1 & K2). exists b, z. split; [|exact K2].
        rewrite (wd_rng _ _ _ _ W) in K1. rewrite (gd_segs _ _ _ _ _ GD). apply in_app_or in K1 as [K1|[K1|[]]]; [right; exact K1|left; exact K1].
      - intros [p n d] u s' Hb US Hp. cbn [bp] in *. destruct (core_in _ _ _ _ _ p n d C0) as (e & HU); [apply in_or_app; left; exact Hb|].
        assert (US' : wp (usable_size p) s (fun u s' => u = e - p)) by (eapply usable_spec; [exact W|exact HU|reflexivity]).
        unfold wp in US'. rewrite US in US'. subst u. destruct Hx as [Hx|(q & n' & d' & e' & Hq & HU' & Hx)].
        + revert Hx. eapply used_not_scratch; [exact W|exact HU|lia].
        + assert (NE := nodup_not_other p n d _ _ _ (core_nodup _ _ _ _ _ C0) Hb Hq). cbn [bp] in NE.
          destruct (used_two _ _ HU HU') as [K|K]; [congruence|]. unfold esep, eend, eptr in K. cbn [fst snd] in K. lia. }
    exists A, F. split; [|split; reflexivity]. constructor; cbn [next live pend segs].
    - apply core_write; [exact C0|]. intros x. destruct (scratch_dec g A x) as [K|K]; [left; apply PR; left; exact K|right; exact K].
    - exact (gd_segs _ _ _ _ _ GD).
    - destruct Q0 as (Q1 & Q2 & Q3). split; [exact Q1|]. split; [exact Q2|]. cbn [smem set_mem].
      eapply qok_frame; [|exact Q3]. intros q y Hq Hy. apply PR. right.
      apply in_map_iff in Hq as ([q' n' d'] & E & Hq). cbn [bp] in E. subst q'.
      destruct (core_in _ _ _ _ _ q n' d' C0) as (e' & HU'); [apply in_or_app; right; exact Hq|].
      destruct (used_in _ _ _ _ _ _ _ _ W HU') as (_ & _ & _ & U & _). exists q, n', d', e'. split; [exact Hq|]. split; [exact HU'|]. lia.
  Qed.
End Step.
