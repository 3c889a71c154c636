(** The state after start-up. *)
From Verif Require Import Word Res Mem SizeClassModel ChainModel Wp ChainInv ChainSpec ChainStep ChainRefill ChainEv ChainProps ChainCap ChainSrc ChainPut ChainMore ChainCore ChainFuel ChainTrace ChainWalk
  RegionModel RegionSpec RegionProofs LightModel LightSpec LightProofs PosixModel PosixSpec PosixChain PosixInv PosixSrc PosixLocal PosixMid PosixCall PosixRun PosixEff PosixFun PosixPub PosixNew PosixApi.
From Coq Require Import ZArith List Bool Lia.
Import ListNotations.
Open Scope Z_scope.

Lemma runs_egg e y k c o : chain y 0 = Some k -> kg k = egg_cfg e -> reach (kg k) (set_mem (kst k) (ymem y)) o -> valid (kg k) (set_mem (kst k) (ymem y)) o c ->
  Runs (fun f => call f e no_os 0 c y) (fun '(r, y') => exists s' f, y' = log (after_step y 0 k s') (TCall 0 c r []) /\ sevs s' = [] /\ reach (kg k) s' (next o c r []) /\
    step f (kg k) c (set_mem (kst k) (ymem y)) = Ok (r, s')).
Proof.
  intros Hk EG R V. assert (NS : csrc (kg k) = false) by (rewrite EG; reflexivity).
  eapply runs_ext; [intros f; unfold call; rewrite Hk; reflexivity|]. eapply runs_bind; [exact (runs_step _ _ _ _ R V)|]. intros (r & s') (f & E).
  assert (EV : sevs s' = []) by (unfold step in E; rewrite (exec_nosrc _ _ _ _ _ _ NS E); reflexivity).
  unfold wants. rewrite NS. cbn [andb]. unfold finish. rewrite EV. cbn [rev events rbind]. eapply runs_ok; [intros f0; reflexivity|].
  exists s', f. split; [reflexivity|]. split; [exact EV|]. split; [|exact E]. pose proof (reach_step _ _ _ _ _ _ _ R V E) as K. rewrite EV in K. exact K.
Qed.
Lemma clear_set s : sevs s = [] -> set_mem (clear_ev s) (smem s) = s.
Proof. intros E. destruct s. cbn in *. subst. reflexivity. Qed.

Lemma runs_start e m : wf_env e ->
  Runs (fun f => sys_init f e m) (fun y => SInv e y (start_obs e y) /\ (forall t, ytls y t = None) /\ length (ych y) = 1%nat /\ lmap (ysrc y) = []).
Proof.
  intros W. pose proof W as (W1 & W2 & W3 & W4 & W5 & W6 & W7). assert (WC : wf_cfg (egg_cfg e)). { split; cbn [egg_cfg cpool]; [lia|]. unfold POOL_SIZE, CHAIN_SIZE in *. change (2 ^ 47) with 140737488355328 in *. change (2 ^ 56) with 72057594037927936. lia. }
  destruct (init_runs (egg_cfg e) m WC) as (s & EI & RI & _). pose proof (init_evs _ _ _ WC EI) as VI. unfold sys_init. rewrite EI. cbn [rbind].
  set (k := mkChn (egg_cfg e) true false s). set (y := mkSys (smem s) [Some k] (fun _ => None) (fun _ => None) (ls0 m) 0 []).
  assert (Hk : chain y 0 = Some k) by reflexivity. assert (R0 : reach (kg k) (set_mem (kst k) (ymem y)) obs0).
  { change (reach (egg_cfg e) (set_mem s (smem s)) obs0). replace (set_mem s (smem s)) with s by (destruct s; reflexivity). exact RI. }
  assert (V0 : valid (kg k) (set_mem (kst k) (ymem y)) obs0 (ORefill (ebuf e) EGG_MEM)).
  { split; [reflexivity|]. right. unfold new_range. cbn [k kg egg_cfg cpool obs0 segs]. unfold EGG_MEM in *. change (2 ^ 47) with 140737488355328 in *. change (2 ^ 56) with 72057594037927936.
    split; [lia|]. split; [lia|]. split; [exact W5|]. split; [reflexivity|]. split; [lia|]. intros r [<-|[]]. unfold ChainSpec.apart in *. cbn [fst snd] in *. unfold POOL_SIZE, CHAIN_SIZE in *. lia. }
  eapply runs_bind; [exact (runs_egg e y k _ obs0 Hk eq_refl R0 V0)|]. intros (r1 & y1) (s1 & f1 & -> & E1 & R1 & ST1). cbn [next] in R1.
  destruct (Z.eqb_spec (ebuf e) 0) as [K|_]; [lia|]. cbn [fold_right obs0 segs live pend] in R1.
  destruct (refill_adds _ _ _ _ _ _ _ _ R0 V0 ltac:(lia) ST1) as (_ & _ & _ & CH1 & _).
  set (y1 := log (after_step y 0 k s1) (TCall 0 (ORefill (ebuf e) EGG_MEM) r1 [])).
  assert (RV : RInv (rview e y1) []) by (apply (rinv_hdr _ (hdr r0)); [exact rinv_init|intros x []]).
  destruct (set_ok _ _ (eegg e) (ebuf e) EGG_MEM RV) as (r2 & s2 & E2 & RI2).
  { split; [|split; [lia|intros x []]]. unfold seg_ok. cbn [sb ss]. change (2 ^ 47) with 140737488355328 in *. change (2 ^ 48) with 281474976710656. unfold EGG_MEM in *. split; [exact W3|]. split; [lia|]. split; [lia|reflexivity]. }
  rewrite E2. cbn [rbind]. set (y2 := yset_regs y1 (regs s2)). set (k1 := mkChn (egg_cfg e) true false (clear_ev s1)).
  assert (Hk2 : chain y2 0 = Some k1) by reflexivity. set (o1 := mkObs [] [] [(ebuf e, EGG_MEM)]) in *.
  assert (R2 : reach (kg k1) (set_mem (kst k1) (ymem y2)) o1).
  { change (reach (egg_cfg e) (set_mem (clear_ev s1) (smem s1)) o1). rewrite (clear_set _ E1). exact R1. }
  set (c := OAlloc (ehook e LIGHT_SIZE) LIGHT_SIZE None). assert (H2 : ehook e LIGHT_SIZE <= 2 ^ 19 /\ (ehook e LIGHT_SIZE = 0 \/ exists kk, 0 <= kk /\ ehook e LIGHT_SIZE = 2 ^ kk)).
  { destruct (W7 LIGHT_SIZE) as [-> |(kk & K1 & K2)]; [split; [lia|auto]|]. rewrite K2. split; [apply Z.pow_le_mono_r; lia|]. right. exists kk. split; [lia|reflexivity]. }
  change (2 ^ 19) with 524288 in H2.
  assert (V2 : valid (kg k1) (set_mem (kst k1) (ymem y2)) o1 c).
  { unfold c. cbn [valid]. split; [unfold LIGHT_SIZE; lia|]. split; [exact (proj2 H2)|]. split; [change (2 ^ 63) with 9223372036854775808; unfold LIGHT_SIZE in *; lia|]. split; intros K; discriminate. }
  eapply runs_bind; [exact (runs_egg e y2 k1 c o1 Hk2 eq_refl R2 V2)|]. intros (p & y3) (s3 & f3 & -> & E3 & R3 & ST3). eapply runs_ok; [intros f; reflexivity|].
  assert (HP : p <> 0).
  { destruct (empty_restores _ _ _ R2 eq_refl eq_refl eq_refl) as (_ & K). apply (K _ _ _ _ _ _ V2 ltac:(unfold LIGHT_SIZE; lia) ST3). exists (ebuf e), EGG_MEM. split; [left; reflexivity|].
    unfold room, asked, EGG_MEM, LIGHT_SIZE in *. destruct (1 <? ehook e 72); lia. }
  set (y4 := mkSys _ _ _ _ _ _ _). cbn [c next] in R3. destruct (Z.eqb_spec p 0) as [|_]; [contradiction|]. cbn [fold_right o1 live pend segs] in R3.
  assert (Hk4 : chain y4 0 = Some (mkChn (egg_cfg e) true false (clear_ev s3))) by reflexivity.
  assert (R4 : reach (egg_cfg e) (set_mem (clear_ev s3) (ymem y4)) (oat (start_obs e y4) 0)) by (change (ymem y4) with (smem s3); rewrite (clear_set _ E3); exact R3).
  assert (C1 : forall j kj, chain y4 j = Some kj -> j = 0%nat /\ kj = mkChn (egg_cfg e) true false (clear_ev s3)).
  { intros [|[|j]] kj H; [rewrite Hk4 in H; injection H as <-; auto|discriminate|destruct j; discriminate]. }
  split; [|split; [reflexivity|split; [reflexivity|reflexivity]]].
    exists [], [], [mkSeg (ebuf e) EGG_MEM (eegg e)]. constructor.
    + exact W.
    + constructor.
      * reflexivity.
      * eexists. split; [exact Hk4|]. auto.
      * reflexivity.
      * intros j kj H N. apply C1 in H as (-> & _). congruence.
      * intros j kj H. apply C1 in H as (-> & ->). exact R4.
      * intros j kj H. apply C1 in H as (-> & ->). reflexivity.
      * intros j kj H N. apply C1 in H as (-> & _). congruence.
      * eexists. left. reflexivity.
      * intros j1 j2 k2 k3 H H'. apply C1 in H as (-> & _). apply C1 in H' as (-> & _). reflexivity.
      * intros [|[|j]] H; [rewrite Hk4 in H; discriminate|reflexivity|destruct j; reflexivity].
      * intros j1 j2 k2 k3 x1 x2 N1 N2 N3 H. apply C1 in H as (-> & _). congruence.
      * intros j kj x N H. apply C1 in H as (-> & _). congruence.
      * intros t j H. discriminate.
      * intros t t' j H. discriminate.
    + apply linv_mem; [exact (linv_init m)|intros b n []|intros b n []].
    + intros x [].
    + intros x. split; [intros []|]. intros [(j & kj & N & H & _)|[[]|[]]]. apply C1 in H as (-> & _). congruence.
    + exists (hdr s2). destruct s2. exact RI2.
    + intros x. split.
      * intros [<-|[]]. left. exists 0%nat. eexists. split; [exact Hk4|]. split; [left; reflexivity|reflexivity].
      * intros [(j & kj & H & H1 & H3)|([] & _)]. apply C1 in H as (-> & ->). destruct H1 as [H1|[]]. left. destruct x. cbn in *. injection H1 as -> ->. subst. reflexivity.
    + intros b z [].
    + intros x [[]|[]].
    + constructor.
    + intros _. cbn. lia.
Qed.
