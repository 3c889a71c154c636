(** Exchanges with the memory source. *)
From Verif Require Import Word Res Mem SizeClassModel SizeClassProofs ChainModel Wp ChainInv ChainZip ChainList ChainFl ChainPrim ChainFind ChainSplit ChainMerge ChainOps ChainAlloc ChainFree ChainSpec ChainCore ChainCoreFree ChainStep ChainRealloc ChainQueue ChainRefill ChainFuel ChainTrace ChainEv ChainProps ChainWalk ChainCap.
From Coq Require Import ZArith List Bool Lia Permutation.
Import ListNotations.
Open Scope Z_scope.

Lemma realloc_info g s o h p n gr fuel r s' A F : Good g s o A F -> valid g s o (ORealloc h p n gr) ->
  step fuel g (ORealloc h p n gr) s = Ok (r, s') ->
  moved s A p n r s' /\ (r = 0 -> n = 0 \/ refused g A h n gr) /\ srcok g o h p n gr (sevs s').
Proof.
  intros G V E. pattern r, s'. eapply (step_any fuel g s o (ORealloc h p n gr) r s'); [|exact E]. cbv beta.
  intros f Hf. eapply wp_mono; [apply (step_realloc f g s o A F G h p n gr V Hf)|]. intros r1 s1 (_ & K1 & K2 & K3 & _). auto.
Qed.

(** What a call asks to the source is what the specification says, with the granted address. *)
Lemma gets_new g s o c fuel r s' b z : reach g s o -> valid g s o c -> step fuel g c s = Ok (r, s') ->
  In (EGet b z) (sevs s') -> csrc g = true /\ new_range g o b z.
Proof.
  intros R V E. revert b z.
  assert (NG : not_refill c -> (forall b z, ~ gets c (EGet b z)) -> forall b z, In (EGet b z) (sevs s') -> csrc g = true /\ new_range g o b z).
  { intros NR H b z HI. exfalso. destruct (ev_exec fuel g c NR _ _ _ E) as (evs & K1 & K2 & _). cbn [clear_ev sevs] in K1. rewrite app_nil_r in K1.
    rewrite K1 in HI. rewrite Forall_forall in K2. destruct (K2 _ HI) as (_ & K3). exact (H _ _ K3). }
  destruct c as [d n gr|p|h p n gr|bb z|x v|p| |m]; [| | |clear NG|apply NG; [exact I|cbn; auto]..].
  - clear NG. intros b z HI. destruct (alloc_info _ _ _ _ _ _ _ _ _ R V E) as (H0 & H1).
    destruct (Z.eq_dec r 0) as [Er|Er]; [destruct (H0 Er) as (-> & _); contradiction|].
    destruct (H1 Er) as (_ & [(K & _)|(b1 & K1 & K2 & K3 & _)]); [rewrite K in HI; contradiction|].
    rewrite K3 in HI. destruct HI as [HI|[]]. injection HI as <- <-. split; [exact K1|].
    destruct V as (_ & _ & _ & _ & V1). exact (V1 K1 _ K2).
  - apply NG; [exact I|cbn; auto].
  - clear NG. intros b z HI. destruct (reach_good _ _ _ R) as (A & F & G).
    destruct (realloc_info _ _ _ _ _ _ _ _ _ _ _ _ G V E) as (_ & _ & (K & _)). destruct (K _ _ HI) as (K1 & K2 & ->). split; [exact K1|].
    destruct V as (_ & (_ & _ & _ & _ & V1) & _). exact (V1 K1 _ K2).
  - intros b z0 HI. exfalso. unfold step in E. cbn [exec] in E. unfold bind in E.
    destruct (user_refill g bb z (clear_ev s)) as [[t s1]| | |] eqn:E1; try discriminate. injection E as _ <-.
    rewrite (ev_user_refill _ _ _ _ _ _ E1) in HI. contradiction.
Qed.

(** ** C22 *)
Lemma put_gone b evs : forall l, In (EPut b) evs -> (forall z, ~ In (EGet b z) evs) -> ~ In b (map fst (fold_right apply_ev l evs)).
Proof.
  induction evs as [|e evs IH]; intros l HP NG HI; [contradiction|]. destruct HP as [->|H]; cbn [fold_right] in HI.
  - cbn [apply_ev] in HI. apply in_map_iff in HI as ((x & z) & E & HI). apply filter_In in HI as (_ & HI). cbn in E. lia.
  - destruct e as [b' z'|b']; cbn [apply_ev] in HI.
    + cbn [map] in HI. destruct HI as [HI|HI]; [cbn in HI; subst b'; exact (NG z' (or_introl eq_refl))|].
      exact (IH l H (fun z K => NG z (or_intror K)) HI).
    + apply in_map_iff in HI as ((x & z) & E & HI). apply filter_In in HI as (HI & _). cbn in E. subst x.
      apply (IH l H (fun z K => NG z (or_intror K))). apply in_map_iff. exists (b, z). auto.
Qed.
Lemma put_held b evs : forall l, In (EPut b) evs -> held_ok evs l -> (forall z, ~ In (EGet b z) evs) -> In b (map fst l).
Proof.
  induction evs as [|e evs IH]; intros l HI H NG; [contradiction|]. cbn [held_ok] in H. destruct H as (H1 & H2). destruct HI as [->|HI].
  - apply in_map_iff in H2 as ((x & z) & E & H2). cbn in E. subst x. apply apply_evs_in in H2 as [H2|(b' & z' & E & H2)].
    + apply in_map_iff. exists (b, z). auto.
    + injection E as <- <-. exfalso. exact (NG z (or_intror H2)).
  - apply IH; [exact HI|exact H1|]. intros z K. exact (NG z (or_intror K)).
Qed.

Lemma source_count g s o : reach g s o -> csrc g = true -> scnt s = Z.of_nat (length (segs o)).
Proof.
  intros R Hc. destruct (reach_good _ _ _ R) as (A & F & G). destruct (co_src _ _ _ _ _ (gd_core _ _ _ _ _ G) Hc) as (_ & K & _).
  rewrite K, (gd_segs _ _ _ _ _ G), map_length. reflexivity.
Qed.

(** A held segment is in use: it has a block, or a piece of the 1 MB band that nobody owns. *)
Lemma source_busy g s o : reach g s o -> csrc g = true -> cmerge g = true -> forall x z, In (x, z) (segs o) ->
  (exists b, In b (blocks o) /\ inside (x, z) b = true) \/
  (exists w c, In (w, c) (occ_in (smem s) (x, z)) /\ 1048576 <= c <= 1048576 + 16).
Proof.
  intros R Hc Hm x z HI. destruct (reach_good _ _ _ R) as (A & F & G). assert (W := good_world _ _ _ _ _ G). assert (C := gd_core _ _ _ _ _ G).
  destruct (good_seg _ _ _ _ _ _ _ G HI) as (sg & HS & -> & ->). destruct (co_busy _ _ _ _ _ C Hc Hm _ HS) as ((c & k) & H1 & H2).
  destruct (in_split _ _ H1) as (l1 & l2 & E). destruct k as [| |p n d]; [cbn in H2; contradiction| |].
  - right. destruct (co_lk _ _ _ _ _ C _ _ HS H1) as (_ & K). fold (segr sg). rewrite (occ_in_seg _ _ _ _ W HS).
    exists (gbase sg + 32 + tot l1), c. split; [|exact K]. rewrite E. clear.
    generalize (gbase sg + 32). induction l1 as [|[c0 k0] l1 IH]; intros a; cbn [app tot busy_from].
    + replace (a + 0) with a by lia. left. reflexivity.
    + apply in_or_app. right. replace (a + (c0 + tot l1)) with (a + c0 + tot l1) by lia. apply IH.
  - left. assert (HU : In (p, n, d, gbase sg + 32 + tot l1 + c) (used_from (gbase sg + 32) (gchunks sg))).
    { rewrite E, used_from_app. apply in_or_app. right. left. reflexivity. }
    exists (mkBlk p n d). split.
    + eapply used_blocks; [exact G|]. unfold used. apply in_flat_map. exists sg. split; [exact HS|exact HU].
    + exact (seg_used_inside _ _ _ _ _ _ W HS HU).
Qed.

(** What goes back to the source was held, is not held any more, and no block is left in it. *)
Lemma source_put g s o c fuel r s' b : reach g s o -> valid g s o c -> step fuel g c s = Ok (r, s') -> In (EPut b) (sevs s') ->
  let o' := next o c r (sevs s') in
  csrc g = true /\ (exists z, In (b, z) (segs o)) /\ ~ In b (map fst (segs o')) /\
  (forall z k, In (b, z) (segs o) -> In k (blocks o') -> inside (b, z) k = false).
Proof.
  intros R V E HI o'. assert (R' := reach_step _ _ _ _ _ _ _ R V E). fold o' in R'.
  assert (SA := segs_apart _ _ _ R). assert (SB := seg_big _ _ _ R).
  assert (GN := fun bb zz => gets_new _ _ _ _ _ _ _ bb zz R V E).
  assert (NR : not_refill c).
  { destruct c as [d n gr|p|h p n gr|bb z|x v|p| |m]; try exact I. exfalso. unfold step in E. cbn [exec] in E. unfold bind in E.
    destruct (user_refill g bb z (clear_ev s)) as [[t s1]| | |] eqn:E1; try discriminate. injection E as _ <-.
    rewrite (ev_user_refill _ _ _ _ _ _ E1) in HI. contradiction. }
  assert (ES : segs o' = fold_right apply_ev (segs o) (sevs s')).
  { unfold o'. destruct c; try contradiction; reflexivity. }
  assert (NB : forall z, In (b, z) (segs o) -> forall z', ~ In (EGet b z') (sevs s')).
  { intros z Hz z' K. destruct (GN _ _ K) as (_ & (Q1 & Q2 & Q3 & Q4 & Q5 & Q6)).
    assert (AP : apart (b, z') (b, z)) by (apply Q6; right; exact Hz). assert (SZ := SB _ _ Hz).
    unfold apart in AP. cbn [fst snd] in AP. lia. }
  destruct (ev_exec fuel g c NR _ _ _ E) as (evs & K1 & K2 & K3 & K4). cbn [clear_ev sevs srng] in K1, K3, K4. rewrite app_nil_r in K1.
  rewrite Forall_forall in K2.
  assert (Hc : csrc g = true) by (apply (K2 (EPut b)); rewrite <- K1; exact HI).
  assert (HB : exists z, In (b, z) (segs o)).
  { assert (NGC : (forall z, ~ In (EGet b z) (sevs s')) -> exists z, In (b, z) (segs o)).
    { intros NG. assert (PH := put_held b evs (srng s)). rewrite <- K1 in PH. specialize (PH HI ltac:(rewrite K1; exact K4) NG).
      destruct (reach_good _ _ _ R) as (A & F & G). destruct (reach_good _ _ _ R') as (A' & F' & G').
      assert (RNG := wd_rng _ _ _ _ (good_world _ _ _ _ _ G)). rewrite <- (gd_segs _ _ _ _ _ G) in RNG.
      assert (RNG' := wd_rng _ _ _ _ (good_world _ _ _ _ _ G')).
      rewrite RNG, map_app in PH. apply in_app_or in PH as [PH|PH].
      - apply in_map_iff in PH as ((x & z) & Ex & Hx). cbn in Ex. subst x. exists z. exact Hx.
      - exfalso. cbn in PH. destruct PH as [<-|[]]. assert (PG := put_gone (cpool g) evs (srng s)). rewrite <- K1 in PG.
        specialize (PG HI NG). rewrite K1, <- K3, RNG', map_app in PG. apply PG. apply in_or_app. right. left. reflexivity. }
    destruct c as [d n gr|p|h p n gr|bb z|x v|p| |m]; try contradiction.
    - exfalso. destruct (K2 (EPut b)) as (_ & PD); [rewrite <- K1; exact HI|exact PD].
    - apply NGC. intros z K. destruct (K2 (EGet b z)) as (_ & PD); [rewrite <- K1; exact K|exact PD].
    - destruct (reach_good _ _ _ R) as (A & F & G).
      destruct (realloc_info _ _ _ _ _ _ _ _ _ _ _ _ G V E) as (_ & _ & (_ & K)). destruct (K _ HI) as (_ & z & K5 & _). eauto.
    - apply NGC. intros z K. destruct (K2 (EGet b z)) as (_ & PD); [rewrite <- K1; exact K|exact PD].
    - apply NGC. intros z K. destruct (K2 (EGet b z)) as (_ & PD); [rewrite <- K1; exact K|exact PD].
    - apply NGC. intros z K. destruct (K2 (EGet b z)) as (_ & PD); [rewrite <- K1; exact K|exact PD].
    - apply NGC. intros z K. destruct (K2 (EGet b z)) as (_ & PD); [rewrite <- K1; exact K|exact PD]. }
  split; [exact Hc|]. split; [exact HB|]. destruct HB as (z0 & HB).
  assert (GONE : ~ In b (map fst (segs o'))) by (rewrite ES; apply put_gone; [exact HI|exact (NB z0 HB)]).
  split; [exact GONE|]. intros z k Hz Hk. destruct (blocks_inside _ _ _ R' _ Hk) as (u & x & zz & U1 & U2 & U3 & U4 & U5 & U6).
  unfold inside. cbn [fst snd].
  assert (AP : apart (b, z) (x, zz)).
  { rewrite ES in U4. assert (U4' := U4). apply apply_evs_in in U4' as [J|(b1 & z1 & J1 & J2)].
    - inversion SA as [|? ? _ SA']; subst. destruct (ForallOrdPairs_In SA' _ _ Hz J) as [EQ|[EQ|EQ]]; [|exact EQ|unfold apart in *; cbn [fst snd] in *; lia].
      exfalso. injection EQ as <- <-. apply GONE. rewrite ES. apply in_map_iff. exists (b, z). auto.
    - injection J1 as <- <-. destruct (GN _ _ J2) as (_ & (_ & _ & _ & _ & _ & Q6)). specialize (Q6 _ (or_intror Hz)).
      unfold apart in *; cbn [fst snd] in *; lia. }
  unfold apart in AP. cbn [fst snd] in AP. assert (1 <= u) by lia. lia.
Qed.
