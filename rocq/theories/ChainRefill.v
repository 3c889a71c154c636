(** Giving a buffer to a chain; creating a chain. *)
From Verif Require Import Word Res Mem SizeClassModel SizeClassProofs ChainModel Wp ChainInv ChainZip ChainList ChainFl ChainPrim ChainFind ChainSplit ChainMerge ChainOps ChainAlloc ChainFree ChainSpec ChainCore ChainCoreFree ChainStep.
From Coq Require Import ZArith List Bool Lia Permutation.
Import ListNotations.
Open Scope Z_scope.

Lemma core_setbe g s B A F b e c : Core g s B A F -> csrc g = false ->
  ((A = [] /\ b = 0) \/ exists A0 sg, A = A0 ++ [sg] /\ b = gbase sg /\ e = gbase sg + gsize sg) ->
  Core g (set_cnt (set_be s b e) c) B A F.
Proof.
  intros [[i1 i2 i3] c2 c3 c4 c5 c6 c7 c8] Hs HB. constructor; auto; cbn [sbase send scnt set_cnt set_be]; try congruence.
  constructor; cbn [smem srng sbase set_cnt set_be]; auto.
  destruct HB as [(_ & ->)|(A0 & sg & -> & -> & _)]; [left; reflexivity|right]. exists sg. split; [apply in_or_app; right; left; reflexivity|reflexivity].
Qed.

Section Refill.
  Context (fuel : nat) (g : cfg) (s : st) (o : obs) (A : list seg) (F : Z -> list Z).
  Hypothesis GD : Good g s o A F.
  Let s0 := clear_ev s.
  Let C0 : Core g s0 (live o ++ pend o) A F := core_clear _ _ _ _ _ (gd_core _ _ _ _ _ GD).
  Let Q0 : Queue s0 (map bp (pend o)) := gd_queue _ _ _ _ _ GD.

  Lemma step_refill b z : valid g s o (ORefill b z) ->
    wp (exec fuel g (ORefill b z)) s0 (fun r s' => exists A' F',
      Good g s' (next o (ORefill b z) r (sevs s')) A' F' /\ sevs s' = [] /\
      (A' = A \/ (b <> 0 /\ A' = mkSeg b z [(z - 48, Fr)] :: A)) /\
      (forall x, ~ scratch g A x -> ~ b <= x < b + z -> smem s' x = smem s x)).
  Proof.
    clearbody C0 Q0. intros (Hs & V). cbn [exec].
    assert (BB := co_base _ _ _ _ _ C0 Hs).
    destruct V as [(-> & ->)|V].
    { unfold user_refill. cbn [Z.eqb negb orb andb Z.ltb Z.compare].
      apply wp_bind. apply wp_bind. apply wp_assume; [reflexivity|]. apply wp_bind. apply wp_assume; [reflexivity|].
      apply wp_bind. apply wp_ret. apply wp_bind. apply wp_getst.
      apply wp_bind. destruct (Z.eqb_spec (sbase s0) 0) as [E|E].
      - apply wp_modst. apply wp_modst. apply wp_ret. exists A, F. split; [|split; [reflexivity|split; [left; reflexivity|auto]]].
        constructor; cbn [next live pend segs Z.eqb].
        + apply core_setbe; [exact C0|exact Hs|]. destruct BB as [(-> & _)|(A0 & sg & -> & K & _)]; [left; auto|].
          exfalso. destruct (w_segok _ _ _ _ (iv_w _ _ _ _ (co_inv _ _ _ _ _ C0)) sg) as (J & _); [apply in_or_app; right; left; reflexivity|]. lia.
        + exact (gd_segs _ _ _ _ _ GD).
        + exact Q0.
      - apply wp_ret. apply wp_modst. apply wp_ret. exists A, F. split; [|split; [reflexivity|split; [left; reflexivity|auto]]].
        constructor; cbn [next live pend segs Z.eqb].
        + destruct s0 as [x1 x2 x3 x4 x5 x6 x7 x8]. apply (core_setbe _ (mkSt x1 x2 x3 x4 x5 x6 x7 x8) _ _ _ x3 x4); [exact C0|exact Hs|exact BB].
        + exact (gd_segs _ _ _ _ _ GD).
        + exact Q0. }
    destruct V as (V1 & V2 & V3 & V4 & V5 & V6).
    assert (IV := co_inv _ _ _ _ _ C0). assert (W := iv_w _ _ _ _ IV).
    assert (FR : fresh s0 b z).
    { apply (new_range_fresh g s0 A F o b z IV (gd_segs _ _ _ _ _ GD)). exact (conj V1 (conj V2 (conj V3 (conj V4 (conj V5 V6))))). }
    change (2 ^ 56) with AMAX in V2.
    unfold user_refill. destruct (Z.eqb_spec b 0); [lia|]. cbn [negb orb andb].
    apply wp_bind. apply wp_bind. apply wp_assume; [reflexivity|]. apply wp_bind. apply wp_assume; [lia|].
    replace (0 <? z) with true by lia.
    apply wp_bind. apply wp_bind. apply wp_modst.
    assert (NS := newseg_spec g s0 F A b z (set_rng s0 ((b, z) :: srng s0)) IV FR eq_refl eq_refl eq_refl).
    apply wp_bind_inv in NS. apply wp_bind. eapply wp_mono; [exact NS|]. cbv beta. intros _ s1 NS1.
    apply wp_bind. eapply wp_mono; [exact NS1|]. cbv beta. clear NS NS1. intros v s2 (-> & I2 & M2 & CH2).
    unfold large_of, SZ_LARGE. replace (b + 32 + 15 + 1 - 16) with (b + 32) by lia.
    eapply wp_mono; [eapply (insert_spec g s2 F [] b z [] (z - 48) [] A (b + 32) AtStart); [exact I2|cbn [tot]; lia]|].
    intros _ s3 (F' & I3 & M3 & CH3). cbn [app] in *.
    assert (E0 : sevs s3 = []).
    { rewrite (memonly_evs _ _ M3), (memonly_evs _ _ M2). reflexivity. }
    set (A' := mkSeg b z [(z - 48, Fr)] :: A) in *.
    assert (CHT : forall x, ~ scratch g A x -> ~ b <= x < b + z -> smem s3 x = smem s x).
    { intros x H1 H2. destruct (CH3 x) as [K|K].
      - rewrite K. destruct (CH2 x) as [K2|K2]; [exact K2|contradiction].
      - exfalso. destruct K as [K|(sg & [<-|K1] & K2)]; [apply H1; left; exact K|cbn [gbase gsize] in K2; tauto|].
        apply H1. right. exists sg. auto. }
    assert (B3 : sbase s3 = sbase s0) by (rewrite (memonly_base _ _ M3), (memonly_base _ _ M2); reflexivity).
    assert (CO : forall bb ee cc, ((A = [] /\ bb = b /\ ee = b + z) \/ (exists A0 sg, A = A0 ++ [sg] /\ bb = gbase sg /\ ee = gbase sg + gsize sg)) ->
      Core g (set_cnt (set_be s3 bb ee) cc) (live o ++ pend o) A' F').
    { intros bb ee cc HB. constructor; cbn [sbase send scnt set_cnt set_be]; try congruence.
      - destruct I3 as [J1 J2 J3]. constructor; cbn [smem srng sbase set_cnt set_be]; auto.
        right. destruct HB as [(-> & -> & _)|(A0 & sg & -> & -> & _)].
        + exists (mkSeg b z [(z - 48, Fr)]). split; [left; reflexivity|reflexivity].
        + exists sg. split; [right; apply in_or_app; right; left; reflexivity|reflexivity].
      - exact (co_live _ _ _ _ _ C0).
      - intros sg [<-|HI]; [exact V3|exact (co_al _ _ _ _ _ C0 _ HI)].
      - intros Hm sg [<-|HI]; [cbn; auto|exact (co_merge _ _ _ _ _ C0 Hm _ HI)].
      - intros sg c [<-|HI] HL; [cbn in HL; destruct HL as [HL|[]]; discriminate|exact (co_lk _ _ _ _ _ C0 _ _ HI HL)].
      - intros _. right. destruct HB as [(-> & -> & ->)|(A0 & sg & -> & -> & ->)].
        + exists [], (mkSeg b z [(z - 48, Fr)]). auto.
        + exists (mkSeg b z [(z - 48, Fr)] :: A0), sg. auto. }
    assert (QQ : Queue s3 (map bp (pend o))).
    { destruct Q0 as (Q1 & Q2 & Q3). destruct (memonly_rq _ _ M3) as (R1 & R2), (memonly_rq _ _ M2) as (R3 & R4).
      split; [rewrite R1, R3; exact Q1|]. split; [rewrite R2, R4; exact Q2|].
      eapply qok_frame; [|exact Q3]. intros q x Hq Hx. apply in_map_iff in Hq as ([q' n' d'] & E & Hq). cbn [bp] in E. subst q'.
      destruct (core_in _ _ _ _ _ q n' d' C0) as (e' & HU'); [apply in_or_app; right; exact Hq|].
      destruct (used_in _ _ _ _ _ _ _ _ W HU') as (sg & J1 & J2 & J3 & J4 & J5 & J6).
      apply CHT.
      - eapply used_not_scratch; [exact W|exact HU'|lia].
      - destruct FR as (_ & _ & _ & _ & D). specialize (D _ (w_in_rng _ _ _ _ W _ J1)). unfold disj2 in D. cbn in D. lia. }
    apply wp_bind. apply wp_getst. apply wp_bind. rewrite B3.
    destruct (Z.eqb_spec (sbase s0) 0) as [E|E].
    - apply wp_modst. apply wp_modst. apply wp_ret. exists A', F'. split; [|split; [exact E0|split; [right; auto|exact CHT]]].
      constructor; cbn [next live pend segs].
      + apply (CO b (add64 b z)). left. destruct BB as [(-> & _)|(A0 & sg & -> & K & _)].
        * split; [reflexivity|]. split; [reflexivity|]. unfold add64, w64. assert (BW := W64_val). rewrite Z.mod_small; lia.
        * exfalso. destruct (w_segok _ _ _ _ W sg) as (J & _); [apply in_or_app; right; left; reflexivity|]. lia.
      + destruct (Z.eqb_spec b 0); [lia|]. cbn [sevs set_cnt set_be]. rewrite E0. cbn [fold_right map A' segr gbase gsize]. f_equal. exact (gd_segs _ _ _ _ _ GD).
      + exact QQ.
    - apply wp_ret. apply wp_modst. apply wp_ret. exists A', F'. split; [|split; [exact E0|split; [right; auto|exact CHT]]].
      constructor; cbn [next live pend segs].
      + replace (set_cnt s3 (scnt s3 + 1)) with (set_cnt (set_be s3 (sbase s3) (send s3)) (scnt s3 + 1)) by reflexivity.
        apply CO. right. destruct BB as [(_ & K)|(A0 & sg & K1 & K2 & K3)]; [contradiction|]. exists A0, sg.
        split; [exact K1|]. split; [congruence|]. rewrite (memonly_send _ _ M3), (memonly_send _ _ M2). exact K3.
      + destruct (Z.eqb_spec b 0); [lia|]. cbn [sevs set_cnt]. rewrite E0. cbn [fold_right map A' segr gbase gsize]. f_equal. exact (gd_segs _ _ _ _ _ GD).
      + exact QQ.
  Qed.
End Refill.

(** ** Creation *)
Lemma init_lists g n : forall i s, 0 <= i -> i + Z.of_nat n <= 48 -> 0 < cpool g -> cpool g + POOL_SIZE <= AMAX ->
  In (cpool g, POOL_SIZE) (srng s) ->
  (forall j, 0 <= j < i -> nxt (smem s) (flist g j) = flist g j /\ prv (smem s) (flist g j) = flist g j) ->
  wp (pool_init_lists g n i) s (fun _ s' => exists m', s' = set_mem s m' /\
    chg (smem s) m' (fun x => cpool g <= x < cpool g + 1536) /\
    forall j, 0 <= j < i + Z.of_nat n -> nxt m' (flist g j) = flist g j /\ prv m' (flist g j) = flist g j).
Proof.
  induction n as [|n IH]; intros i s Hi Hn P1 P2 HR H.
  - cbn [pool_init_lists]. apply wp_ret. exists (smem s). split; [apply set_mem_id|]. split; [apply chg_refl|].
    intros j Hj. apply H. lia.
  - cbn [pool_init_lists]. unfold set_addr, set_magic, set_size, set_next, set_prev.
    assert (BW := W64_val). unfold POOL_SIZE in *.
    assert (AC : forall o k, 0 <= o -> o + k <= 32 -> accb (srng s) (flist g i + o) k = true).
    { intros o k H1 H2. eapply accb_intro; [exact HR| |]; unfold flist; lia. }
    apply wp_bind. apply wp_store; [apply AC; cbn; lia|].
    apply wp_bind. apply wp_bind. apply wp_load; [apply AC; cbn; lia|].
    set (v := mk_info _ _ _). apply wp_store; [apply AC; cbn; lia|].
    apply wp_bind. apply wp_store. { replace (flist g i) with (flist g i + 0) by lia. apply AC; cbn; lia. }
    apply wp_bind. apply wp_store; [apply AC; cbn; lia|].
    apply wp_bind. apply wp_store; [apply AC; cbn; lia|].
    set (mm := sto (sto (sto (sto (sto (smem s) (flist g i + 7) 1 0) (flist g i + 15) 1 v) (flist g i) 7 0) (flist g i + 16) 8 (flist g i)) (flist g i + 24) 8 (flist g i)).
    assert (CH : chg (smem s) mm (fun x => flist g i <= x < flist g i + 32)).
    { unfold mm. do 5 (apply chg_sto; [|intros x Hx; cbn in Hx; lia]). apply chg_refl. }
    eapply wp_mono; [apply (IH (i + 1) (set_mem s mm)); [lia|lia|exact P1|exact P2|exact HR|]|].
    + intros j Hj. cbn [smem set_mem]. unfold nxt, prv. destruct (Z.eq_dec j i) as [->|NE].
      * unfold mm. split.
        -- rewrite ld_sto_other by (cbn; lia). apply ld8_same. unfold flist. lia.
        -- apply ld8_same. unfold flist. lia.
      * rewrite !(chg_ld _ _ _ _ _ CH) by (intros x Hx; cbn in Hx; unfold flist in *; lia). apply H. lia.
    + intros _ s' (m' & E1 & E2 & E3). exists m'. split; [rewrite E1; destruct s; reflexivity|]. split.
      * cbn [smem set_mem] in E2. eapply chg_trans; [eapply chg_weaken; [exact CH|]|exact E2]. intros x Hx. cbv beta in Hx. unfold flist in Hx. lia.
      * intros j Hj. apply E3. lia.
Qed.

Lemma init_status g n : forall i s, 0 <= i -> i + Z.of_nat n <= 48 -> In (cpool g, POOL_SIZE) (srng s) ->
  (forall j, 0 <= j < i -> ld (smem s) (cpool g + POOL_STATUS + j) 1 = 0) ->
  wp (pool_init_status g n i) s (fun _ s' => exists m', s' = set_mem s m' /\
    chg (smem s) m' (fun x => cpool g + 1536 <= x < cpool g + POOL_SIZE) /\
    forall j, 0 <= j < i + Z.of_nat n -> ld m' (cpool g + POOL_STATUS + j) 1 = 0).
Proof.
  induction n as [|n IH]; intros i s Hi Hn HR H.
  - cbn [pool_init_status]. apply wp_ret. exists (smem s). split; [apply set_mem_id|]. split; [apply chg_refl|].
    intros j Hj. apply H. lia.
  - cbn [pool_init_status]. unfold POOL_SIZE, POOL_STATUS in *.
    apply wp_bind. apply wp_store. { eapply accb_intro; [exact HR| |]; cbn; lia. }
    set (mm := sto (smem s) (cpool g + 1536 + i) 1 0).
    assert (CH : chg (smem s) mm (fun x => x = cpool g + 1536 + i)).
    { apply chg_sto; [apply chg_refl|]. intros x Hx. cbn in Hx. lia. }
    eapply wp_mono; [apply (IH (i + 1) (set_mem s mm)); [lia|lia|exact HR|]|].
    + intros j Hj. cbn [smem set_mem]. destruct (Z.eq_dec j i) as [->|NE]; [apply ld1_same; lia|].
      rewrite (chg_ld _ _ _ _ _ CH) by (intros x Hx; cbn in Hx; lia). apply H. lia.
    + intros _ s' (m' & E1 & E2 & E3). exists m'. split; [rewrite E1; destruct s; reflexivity|]. split.
      * cbn [smem set_mem] in E2. eapply chg_trans; [eapply chg_weaken; [exact CH|]|exact E2]. intros x Hx. cbv beta in Hx. lia.
      * intros j Hj. apply E3. lia.
Qed.

Lemma init_good g m : wf_cfg g ->
  wp (base_init g) (init_state g m) (fun _ s => Good g s (mkObs [] [] []) [] (fun _ => []) /\ sevs s = [] /\ scnt s = 0 /\
    forall x, ~ cpool g <= x < cpool g + POOL_SIZE -> smem s x = m x).
Proof.
  intros (P1 & P2). change (2 ^ 56) with AMAX in P2. unfold base_init, pool_init. apply wp_bind.
  eapply wp_mono; [apply init_lists; [lia|lia|exact P1|exact P2|left; reflexivity|intros j Hj; lia]|].
  intros _ s1 (m1 & E1 & C1 & H1). subst s1.
  eapply wp_mono; [apply init_status; [lia|lia|left; reflexivity|intros j Hj; lia]|].
  intros _ s2 (m2 & E2 & C2 & H2). subst s2. cbn [smem set_mem init_state] in *.
  assert (L : forall j, 0 <= j < 48 -> nxt m2 (flist g j) = flist g j /\ prv m2 (flist g j) = flist g j).
  { intros j Hj. unfold nxt, prv. rewrite !(chg_ld _ _ _ _ _ C2) by (intros x Hx; cbn in Hx; unfold flist in Hx; lia). apply H1. lia. }
  split; [|split; [reflexivity|split; [reflexivity|]]].
  - constructor; cbn [live pend segs map app].
    + constructor; cbn [sbase scnt send set_mem init_state].
      * constructor; cbn [smem srng sbase set_mem init_state].
        -- constructor; cbn; [split; [exact P1|exact P2]|reflexivity|repeat constructor|constructor].
        -- constructor.
           ++ intros i Hi. cbn [dseg]. apply L. exact Hi.
           ++ intros i Hi. constructor.
           ++ intros i a Hi. cbn. split; [intros []|intros (c & [] & _)].
           ++ intros i Hi. apply H2. lia.
        -- left. reflexivity.
      * apply perm_nil.
      * intros sg [].
      * intros _ sg [].
      * intros sg c [].
      * intros _. split; [reflexivity|]. split; [reflexivity|]. intros sg [].
      * intros _ _ sg [].
      * intros _. left. auto.
    + reflexivity.
    + split; [reflexivity|]. split; [reflexivity|exact I].
  - intros x Hx. destruct (C2 x) as [K|K]; [rewrite K; destruct (C1 x) as [K2|K2]; [exact K2|]|]; unfold POOL_SIZE in *; exfalso; lia.
Qed.
