(** What calls on the allocator do to the blocks of the program. *)
From Verif Require Import Word Res Mem SizeClassModel ChainModel ChainInv ChainSpec ChainEv ChainProps ChainCap ChainSrc ChainPut ChainMore ChainCore ChainFuel ChainTrace
  RegionModel RegionSpec RegionProofs LightModel LightSpec LightProofs PosixModel PosixSpec PosixChain PosixInv PosixSrc PosixLocal PosixMid PosixCall PosixRun.
From Coq Require Import ZArith List Bool Lia.
Import ListNotations.
Open Scope Z_scope.

(** Blocks other than those at the addresses [T] are kept, and no block appears but [N]. *)
Record Eff (e : env) (y : sys) (O : list obs) (y' : sys) (O' : list obs) (T : Z -> Prop) (N : nat -> blk -> Prop) : Prop := {
  f_inv : SInv e y' O';
  f_light : ylight y' = ylight y;
  f_keep : forall j b u, holds y O j b -> ~ T (bp b) -> size_of y j (bp b) u ->
    holds y' O' j b /\ size_of y' j (bp b) u /\ forall x, bp b <= x < bp b + u -> ymem y' x = ymem y x;
  f_new : forall j b, holds y' O' j b -> (holds y O j b /\ ~ T (bp b)) \/ N j b }.
Definition noT (p : Z) : Prop := False.
Definition noN (j : nat) (b : blk) : Prop := False.
Definition atT (p q : Z) : Prop := q = p.

Lemma eff_refl e y O : SInv e y O -> Eff e y O y O noT noN.
Proof.
  intros H. constructor; [exact H|reflexivity|auto|]. intros j b K. left. split; [exact K|intros []].
Qed.
Lemma eff_trans e y O y1 O1 y2 O2 T1 N1 T2 N2 : Eff e y O y1 O1 T1 N1 -> Eff e y1 O1 y2 O2 T2 N2 ->
  Eff e y O y2 O2 (fun p => T1 p \/ T2 p) (fun j b => (N1 j b /\ ~ T2 (bp b)) \/ N2 j b).
Proof.
  intros E1 E2. constructor.
  - exact (f_inv _ _ _ _ _ _ _ E2).
  - rewrite (f_light _ _ _ _ _ _ _ E2). exact (f_light _ _ _ _ _ _ _ E1).
  - intros j b u H HT U. destruct (f_keep _ _ _ _ _ _ _ E1 j b u H) as (A1 & A2 & A3); [tauto|exact U|].
    destruct (f_keep _ _ _ _ _ _ _ E2 j b u A1) as (B1 & B2 & B3); [tauto|exact A2|]. split; [exact B1|]. split; [exact B2|].
    intros x Hx. rewrite (B3 x Hx). exact (A3 x Hx).
  - intros j b H. destruct (f_new _ _ _ _ _ _ _ E2 j b H) as [(K & HT)|K]; [|auto]. destruct (f_new _ _ _ _ _ _ _ E1 j b K) as [(K1 & K2)|K1]; [left; tauto|right; left; auto].
Qed.
Lemma eff_sub e y O y' O' (T T' : Z -> Prop) (N N' : nat -> blk -> Prop) : Eff e y O y' O' T N -> (forall p, T' p -> T p) ->
  (forall j b, holds y O j b -> T (bp b) -> T' (bp b)) -> (forall j b, holds y' O' j b -> N j b -> N' j b) -> Eff e y O y' O' T' N'.
Proof.
  intros E H1 H2 H3. destruct E. constructor; auto.
  - intros j b u H HT U. apply (f_keep0 j b u H); [intros K; exact (HT (H2 j b H K))|exact U].
  - intros j b H. destruct (f_new0 j b H) as [(K1 & K2)|K]; [left; auto|right; auto].
Qed.
Lemma eff_seq e y O y1 O1 y2 O2 T N : Eff e y O y1 O1 noT noN -> Eff e y1 O1 y2 O2 T N -> Eff e y O y2 O2 T N.
Proof.
  intros E1 E2. apply (eff_sub _ _ _ _ _ _ T _ N (eff_trans _ _ _ _ _ _ _ _ _ _ _ E1 E2)); [auto|intros j b _ [[]|K]; exact K|intros j b _ [([] & _)|K]; exact K].
Qed.
Lemma eff_then e y O y1 O1 y2 O2 T N : Eff e y O y1 O1 T N -> Eff e y1 O1 y2 O2 noT noN -> Eff e y O y2 O2 T N.
Proof.
  intros E1 E2. apply (eff_sub _ _ _ _ _ _ T _ N (eff_trans _ _ _ _ _ _ _ _ _ _ _ E1 E2)); [auto|intros j b _ [K|[]]; exact K|intros j b _ [(K & _)|[]]; exact K].
Qed.

(** A call that asks the source for nothing: no new mapping, no new segment. *)
Definition Quiet (y : sys) (O : list obs) (y' : sys) (O' : list obs) : Prop :=
  incl (lmap (ysrc y')) (lmap (ysrc y)) /\
  forall j k r, chain y' j = Some k -> In r (segs (oat O' j)) -> (exists k0, chain y j = Some k0) /\ In r (segs (oat O j)).
Lemma quiet_refl y O : Quiet y O y O.
Proof. split; [intros x H; exact H|eauto]. Qed.
Lemma quiet_trans y O y1 O1 y2 O2 : Quiet y O y1 O1 -> Quiet y1 O1 y2 O2 -> Quiet y O y2 O2.
Proof.
  intros (A1 & A2) (B1 & B2). split; [intros x H; auto|]. intros j k r H1 H2. destruct (B2 j k r H1 H2) as ((k0 & K1) & K2). exact (A2 j k0 r K1 K2).
Qed.
Lemma quiet_foreign y O y' O' p : Quiet y O y' O' -> foreign y O p -> foreign y' O' p.
Proof. intros (_ & H) (F1 & F2). split; [exact F1|]. intros i k b z H1 H2. destruct (H i k (b, z) H1 H2) as ((k0 & K1) & K2). exact (F2 i k0 b z K1 K2). Qed.
Lemma quiet_os e y O y' O' os z : Quiet y O y' O' -> os_ok e y os z -> os_ok e y' os z.
Proof. intros (H & _) K l Hl. apply K. intros r Hr. apply H, Hl, Hr. Qed.

Lemma usable_ev g s o b u : reach g s o -> In b (live o) -> usable s (bp b) u -> usable (clear_ev s) (bp b) u.
Proof.
  intros R Hl HU. assert (V : valid g s o (OStore (smem s))) by (intros x _; reflexivity).
  destruct (step_kept g s o (OStore (smem s)) 0%nat 0 (clear_ev s) b u R V eq_refl Hl (fun K => K) HU) as (_ & K & _). exact K.
Qed.
(** Two blocks in memory of the allocator. *)
Lemma held_apart e y O i j b b' u u' : SInv e y O -> holds y O i b -> holds y O j b' -> size_of y i (bp b) u -> size_of y j (bp b') u' ->
  (i, b) <> (j, b') -> ChainSpec.apart (bp b, u) (bp b', u').
Proof.
  intros SI ((k1 & C1) & L1 & _) ((k2 & C2) & L2 & _) (q1 & Q1 & U1) (q2 & Q2 & U2) NE. rewrite C1 in Q1. injection Q1 as <-. rewrite C2 in Q2. injection Q2 as <-.
  pose proof (sinv_cor _ _ _ SI) as Co. pose proof (c_reach _ _ _ Co i k1 C1) as R1. pose proof (c_reach _ _ _ Co j k2 C2) as R2.
  assert (B1 : In b (blocks (oat O i))) by (apply in_or_app; left; exact L1). assert (B2 : In b' (blocks (oat O j))) by (apply in_or_app; left; exact L2).
  destruct (Nat.eq_dec i j) as [->|N].
  - rewrite C1 in C2. injection C2 as <-. destruct (blocks_apart _ _ _ R1) as (_ & K). apply (K b b' u u' B1 B2); congruence.
  - destruct (blocks_inside _ _ _ R1 b B1) as (u1 & x1 & z1 & I1 & I2 & I3 & I4 & I5 & I6). destruct (blocks_inside _ _ _ R2 b' B2) as (u2 & x2 & z2 & J1 & J2 & J3 & J4 & J5 & J6).
    pose proof (usable_eq _ _ _ _ U1 I1). pose proof (usable_eq _ _ _ _ U2 J1). subst u1 u2.
    assert (A : ChainSpec.apart (x1, z1) (x2, z2)).
    { destruct (Nat.eq_dec i 0) as [->|Ni].
      - rewrite (c_eseg _ _ _ Co) in I4. destruct I4 as [I4|[]]. injection I4 as <- <-. destruct (c_away _ _ _ Co j k2 _ ltac:(congruence) C2 J4) as (_ & K). unfold ChainSpec.apart in *. cbn [fst snd] in *. lia.
      - destruct (Nat.eq_dec j 0) as [->|Nj].
        + rewrite (c_eseg _ _ _ Co) in J4. destruct J4 as [J4|[]]. injection J4 as <- <-. apply (c_away _ _ _ Co i k1 _ Ni C1 I4).
        + exact (c_segs _ _ _ Co i j k1 k2 _ _ Ni Nj N C1 C2 I4 J4). }
    unfold ChainSpec.apart in *. cbn [fst snd] in *. lia.
Qed.
Lemma held_size e y O i b : SInv e y O -> holds y O i b -> exists u, size_of y i (bp b) u /\ bn b <= u /\ 1 <= bn b /\ 0 < bp b /\ bp b + u <= 2 ^ 47.
Proof.
  intros (out & C & L & M) ((k & Hk) & Hl & _). pose proof (m_cor _ _ _ _ _ _ _ _ _ M) as Co. pose proof (c_reach _ _ _ Co i k Hk) as R.
  assert (B : In b (blocks (oat O i))) by (apply in_or_app; left; exact Hl). destruct (blocks_inside _ _ _ R b B) as (u & x & z & I1 & I2 & I3 & I4 & I5 & I6).
  exists u. split; [exists k; auto|]. split; [exact I2|]. split; [exact I3|]. split; [exact (block_pos _ _ _ R b B)|].
  destruct (Nat.eq_dec i 0) as [->|Ni].
  - rewrite (c_eseg _ _ _ Co) in I4. destruct I4 as [I4|[]]. injection I4 as <- <-. destruct (m_env _ _ _ _ _ _ _ _ _ M) as (_ & _ & _ & W & _). lia.
  - destruct (mid_page _ _ _ _ _ _ _ _ _ M _ (mid_seg _ _ _ _ _ _ _ _ _ M i k _ Ni Hk I4)) as (_ & _ & (B1 & B2 & B3 & B4)). cbn [fst snd] in *. lia.
Qed.
Lemma held_unique e y O i j b b' : SInv e y O -> holds y O i b -> holds y O j b' -> bp b = bp b' -> i = j /\ b = b'.
Proof.
  intros SI H1 H2 E. destruct (held_size _ _ _ _ _ SI H1) as (u & U & U1 & U2 & _). destruct (held_size _ _ _ _ _ SI H2) as (u' & U' & U1' & U2' & _).
  destruct (Nat.eq_dec i j) as [->|N].
  - split; [reflexivity|]. destruct H1 as ((k & Hk) & L1 & _), H2 as (_ & L2 & _). pose proof (c_reach _ _ _ (sinv_cor _ _ _ SI) j k Hk) as R.
    destruct (blocks_apart _ _ _ R) as (_ & K). destruct U as (k1 & K1 & U), U' as (k2 & K2 & U'). rewrite Hk in K1, K2. injection K1 as <-. injection K2 as <-.
    assert (D : {b = b'} + {b <> b'}) by (decide equality; apply Z.eq_dec). destruct D as [D|D]; [exact D|]. exfalso.
    specialize (K b b' u u' (in_or_app _ _ _ (or_introl L1)) (in_or_app _ _ _ (or_introl L2)) D U U'). unfold ChainSpec.apart in K. cbn [fst snd] in K. lia.
  - exfalso. assert (NE : (i, b) <> (j, b')) by congruence. pose proof (held_apart _ _ _ _ _ _ _ _ _ SI H1 H2 U U' NE) as K. unfold ChainSpec.apart in K. cbn [fst snd] in K. lia.
Qed.

(** ** One call on a chain *)
Definition new_blk (o : obs) (c : op) (r : Z) (b : blk) : Prop :=
  match c with
  | OAlloc d n _ => r <> 0 /\ b = mkBlk r n d
  | ORealloc h p n _ => r <> 0 /\ (b = mkBlk r n h \/ r = p /\ exists m d, In (mkBlk p m d) (live o) /\ b = mkBlk p n d)
  | _ => False
  end.
Lemma next_new o c r evs b : (forall h n gr, c <> ORealloc h 0 n gr) -> In b (live (next o c r evs)) -> (In b (live o) /\ ~ target c (bp b)) \/ new_blk o c r b.
Proof.
  intros NP H. assert (RM : forall p, In b (rm p (live o)) -> In b (live o) /\ bp b <> p).
  { intros p K. apply filter_In in K as (K1 & K2). split; [exact K1|]. destruct (Z.eqb_spec (bp b) p); [discriminate|assumption]. }
  destruct c as [d n gr|p|h p n gr|bb z|x v|p| |m]; cbn [next live target new_blk] in *; auto.
  - destruct (Z.eqb_spec r 0); [auto|]. destruct H as [<-|H]; auto.
  - destruct (Z.eqb_spec p 0) as [->|Np]; [exfalso; exact (NP h n gr eq_refl)|]. destruct (n =? 0); [left; auto|]. destruct (Z.eqb_spec r p) as [->|Nr].
    + apply in_map_iff in H as (b0 & E & H). destruct (Z.eqb_spec (bp b0) p) as [Ep|Ep].
      * right. split; [exact Np|]. right. split; [reflexivity|]. exists (bn b0), (bd b0). split; [|congruence]. destruct b0; cbn in *. subst p. exact H.
      * subst b0. left. auto.
    + destruct (Z.eqb_spec r 0); [left; auto|]. destruct H as [<-|H]; [right|left; auto]. split; [assumption|]. left. reflexivity.
Qed.
Lemma next_segs o c r evs : not_refill c -> segs (next o c r evs) = fold_right apply_ev (segs o) evs.
Proof. destruct c; intros H; try reflexivity. contradiction. Qed.
Lemma puts_only evs : forall l, (forall b z, ~ In (EGet b z) evs) -> forall x, In x (fold_right apply_ev l evs) -> In x l.
Proof.
  induction evs as [|[b z|b] evs IH]; intros l H x K; cbn [fold_right apply_ev] in K.
  - exact K.
  - exfalso. apply (H b z). left. reflexivity.
  - apply IH; [intros b' z' J; apply (H b' z'); right; exact J|]. apply filter_In in K. apply K.
Qed.

Section Call.
  Variables (e : env) (y : sys) (O : list obs) (i : nat) (k : chn) (c : op) (r : Z) (y' : sys) (O' : list obs) (c' : op) (s' : st).
  Hypothesis SI : SInv e y O.
  Hypothesis Hk : chain y i = Some k.
  Hypothesis D : Called e y O i k c r y' O' c' s'.
  Let Co : Cor e y O := sinv_cor e y O SI.
  Let Co' : Cor e y' O' := sinv_cor e y' O' (d_inv _ _ _ _ _ _ _ _ _ _ _ D).

  Lemma cd_oati : oat O' i = next (oat O i) c' r (sevs s').
  Proof. rewrite (d_obs _ _ _ _ _ _ _ _ _ _ _ D). apply oat_set_same. rewrite (c_len _ _ _ Co). exact (chain_lt _ _ _ Hk). Qed.
  Lemma cd_oatj j : j <> i -> oat O' j = oat O j.
  Proof. intros N. rewrite (d_obs _ _ _ _ _ _ _ _ _ _ _ D). apply oat_set_other. congruence. Qed.
  Lemma cd_back j kj : chain y' j = Some kj -> exists k0, chain y j = Some k0 /\ kg k0 = kg kj /\ ksh k0 = ksh kj /\ kdes k0 = kdes kj.
  Proof.
    destruct (Nat.eq_dec j i) as [->|N]; intros H.
    - rewrite (d_ch _ _ _ _ _ _ _ _ _ _ _ D) in H. injection H as <-. exists k. auto.
    - rewrite (d_oth _ _ _ _ _ _ _ _ _ _ _ D j N) in H. exists kj. auto.
  Qed.
  Lemma cd_fwd j kj : chain y j = Some kj -> exists k1, chain y' j = Some k1 /\ kg k1 = kg kj /\ ksh k1 = ksh kj /\ kdes k1 = kdes kj.
  Proof.
    destruct (Nat.eq_dec j i) as [->|N]; intros H.
    - rewrite Hk in H. injection H as <-. exists (done k s'). split; [exact (d_ch _ _ _ _ _ _ _ _ _ _ _ D)|]. auto.
    - exists kj. rewrite (d_oth _ _ _ _ _ _ _ _ _ _ _ D j N). auto.
  Qed.
  Lemma cd_reserved p : reserved y' p <-> reserved y p.
  Proof.
    unfold reserved. rewrite (d_lt _ _ _ _ _ _ _ _ _ _ _ D). split; (intros [H|(j & kj & N & H1 & H2)]; [auto|]).
    - destruct (cd_back j kj H1) as (k0 & K1 & K2 & _). right. exists j, k0. rewrite K2. auto.
    - destruct (cd_fwd j kj H1) as (k0 & K1 & K2 & _). right. exists j, k0. rewrite K2. auto.
  Qed.
  (** Memory of the other chains. *)
  Lemma cd_bytes j kj x rg : chain y j = Some kj -> j <> i -> In rg (srng (kst kj)) -> fst rg <= x < fst rg + snd rg ->
    (j = 0%nat -> ~ cpool (kg k) <= x < cpool (kg k) + POOL_SIZE) -> ymem y' x = ymem y x.
  Proof.
    intros Hj N Hr Hx HP. pose proof (chain_rng e y O j kj rg x Co Hj Hr Hx) as CM.
    assert (Hj' : chain y' j = Some kj) by (rewrite (d_oth _ _ _ _ _ _ _ _ _ _ _ D j N); exact Hj).
    pose proof (chain_rng e y' O' j kj rg x Co' Hj' Hr Hx) as CM'. rewrite (d_mem _ _ _ _ _ _ _ _ _ _ _ D x CM').
    destruct (d_step _ _ _ _ _ _ _ _ _ _ _ D) as (fuel & m & E & V & R & _ & OUT & EM).
    destruct (reach_rng _ _ _ (c_reach _ _ _ Co j kj Hj)) as (RG & _). apply RG in Hr. destruct (Nat.eq_dec i 0) as [Ei|Ni].
    - assert (Nj : j <> 0%nat) by congruence. destruct Hr as [->|Hr].
      + destruct (struct_in e y O Co j kj Hj Nj) as (ke & d & u & S1 & S2 & S3 & S4 & S5 & S6). rewrite <- Ei, Hk in S1. injection S1 as <-.
        rewrite (EM (or_intror Ei)) in *. cbn [fst snd] in Hx.
        destruct (step_kept _ _ _ _ _ _ _ (mkBlk (cpool (kg kj)) CHAIN_SIZE d) u R V E) as (_ & _ & K).
        * rewrite Ei. exact S2.
        * intros K. apply (d_tgt _ _ _ _ _ _ _ _ _ _ _ D Ei _ K). right. exists j, kj. auto.
        * exact S3.
        * apply (K x); [cbn [bp]; unfold POOL_SIZE, CHAIN_SIZE in *; lia|apply (d_nw _ _ _ _ _ _ _ _ _ _ _ D)].
      + destruct (c_away _ _ _ Co j kj rg Nj Hj Hr) as (A1 & A2). apply OUT; [exact CM| |].
        * destruct (kg_cases _ _ _ _ _ Co Hk) as (_ & _ & _ & EG). rewrite (EG Ei). cbn [egg_cfg cpool]. unfold ChainSpec.apart in A1. cbn [fst snd] in A1. lia.
        * rewrite Ei, (c_eseg _ _ _ Co). intros b z [K|[]]. injection K as <- <-. unfold ChainSpec.apart in A2. cbn [fst snd] in A2. lia.
    - pose proof (pool_in e y O Co i k Hk Ni) as PI. destruct (Nat.eq_dec j 0) as [Ej|Nj].
      + assert (EG : (eegg e <= x < eegg e + POOL_SIZE) \/ (ebuf e <= x < ebuf e + EGG_MEM)).
        { subst j. destruct (kg_cases _ _ _ _ _ Co Hj) as (_ & _ & _ & EG). rewrite (EG eq_refl), (c_eseg _ _ _ Co) in Hr. cbn [egg_cfg cpool] in Hr. destruct Hr as [->|[<-|[]]]; cbn [fst snd] in Hx; auto. }
        apply OUT; [exact CM|exact (HP Ej)|]. intros b z K. destruct (c_away _ _ _ Co i k (b, z) Ni Hk K) as (A1 & A2). unfold ChainSpec.apart in A1, A2. cbn [fst snd] in A1, A2. lia.
      + pose proof (pool_in e y O Co j kj Hj Nj) as PJ. destruct Hr as [->|Hr].
        * cbn [fst snd] in Hx. pose proof (pools_apart e y O Co i j k kj Hk Hj Ni Nj ltac:(congruence)) as PA. unfold ChainSpec.apart in PA. cbn [fst snd] in PA.
          apply OUT; [exact CM|lia|]. intros b z K. destruct (c_away _ _ _ Co i k (b, z) Ni Hk K) as (A1 & A2). unfold ChainSpec.apart in A1, A2. cbn [fst snd] in A1, A2. unfold EGG_MEM in *. lia.
        * destruct (c_away _ _ _ Co j kj rg Nj Hj Hr) as (A1 & A2). unfold ChainSpec.apart in A1, A2. cbn [fst snd] in A1, A2.
          apply OUT; [exact CM|unfold EGG_MEM in *; lia|]. intros b z K. pose proof (c_segs _ _ _ Co i j k kj _ _ Ni Nj ltac:(congruence) Hk Hj K Hr) as AP.
          unfold ChainSpec.apart in AP. cbn [fst snd] in AP. lia.
  Qed.
  (** Sizes and contents of the blocks of the program. *)
  Lemma cd_keep j b u : holds y O j b -> ~ target c' (bp b) \/ j <> i -> size_of y j (bp b) u ->
    holds y' O' j b /\ size_of y' j (bp b) u /\ forall x, bp b <= x < bp b + u -> ymem y' x = ymem y x.
  Proof.
    intros ((kj & Hj) & Hl & Hr) HT (kj0 & Hj0 & HU). rewrite Hj in Hj0. injection Hj0 as <-.
    assert (HH : In b (live (oat O' j)) -> holds y' O' j b).
    { intros K. split; [destruct (cd_fwd j kj Hj) as (k1 & K1 & _); exists k1; exact K1|]. split; [exact K|]. rewrite cd_reserved. exact Hr. }
    pose proof (c_reach _ _ _ Co j kj Hj) as Rj.
    destruct (blocks_inside _ _ _ Rj b) as (u1 & x1 & z1 & I1 & I2 & I3 & I4 & I5 & I6); [apply in_or_app; left; exact Hl|].
    pose proof (usable_eq _ _ _ _ HU I1). subst u1.
    destruct (reach_rng _ _ _ Rj) as (RG & (WD & _)). destruct (Nat.eq_dec j i) as [->|N].
    - rewrite Hk in Hj. injection Hj as <-. destruct HT as [HT|HT]; [|congruence].
      destruct (d_step _ _ _ _ _ _ _ _ _ _ _ D) as (fuel & m & E & V & R & AG & _ & _).
      assert (AR := agree_rng e y O i k m Co Hk AG).
      assert (HUm : usable (set_mem (kst k) m) (bp b) u) by (pose proof (usable_local _ m _ _ WD AR HU) as K; rewrite set_mem_twice in K; exact K).
      destruct (step_kept _ _ _ _ _ _ _ b u R V E Hl HT HUm) as (K1 & K2 & K3). rewrite <- cd_oati in K1. split; [exact (HH K1)|].
      pose proof (d_ch _ _ _ _ _ _ _ _ _ _ _ D) as Hk'. pose proof (c_reach _ _ _ Co' i _ Hk') as R'. destruct (reach_rng _ _ _ R') as (RG' & (WD' & _)).
      assert (CMEM : forall x rg, In rg (srng s') -> fst rg <= x < fst rg + snd rg -> ymem y' x = smem s' x).
      { intros x rg H1 H2. apply (d_mem _ _ _ _ _ _ _ _ _ _ _ D). exact (chain_rng e y' O' i (done k s') rg x Co' Hk' H1 H2). }
      assert (K2' : usable (clear_ev s') (bp b) u).
      { apply (usable_ev (kg k) s' (oat O' i)); [|exact K1|exact K2]. rewrite cd_oati. exact (reach_step _ _ _ _ _ _ _ R V E). }
      split.
      + exists (done k s'). split; [exact Hk'|].
        assert (A2 : agree (srng (clear_ev s')) (smem (clear_ev s')) (ymem y')) by (intros x b0 z0 H1 H2; exact (CMEM x (b0, z0) H1 H2)).
        exact (usable_local (clear_ev s') (ymem y') (bp b) u WD' A2 K2').
      + intros x Hx.
        assert (Hrg : In (x1, z1) (srng (kst k))) by (apply RG; right; exact I4).
        assert (Hx1 : x1 <= x < x1 + z1) by lia.
        pose proof (chain_rng e y O i k (x1, z1) x Co Hk Hrg Hx1) as CMx. rewrite <- (AG x CMx).
        assert (Hx2 : exists rg, In rg (srng s') /\ fst rg <= x < fst rg + snd rg).
        { destruct (blocks_inside _ _ _ R' b) as (u2 & x2 & z2 & J1 & J2 & J3 & J4 & J5 & J6); [apply in_or_app; left; exact K1|].
          assert (Eu : u = u2).
          { apply (usable_eq (set_mem (clear_ev s') (ymem y')) (bp b)); [|exact J1].
            apply (usable_local (clear_ev s') (ymem y') (bp b) u WD'); [intros a b0 z0 H1 H2; exact (CMEM a (b0, z0) H1 H2)|]. exact K2'. }
          subst u2. exists (x2, z2). split; [apply RG'; right; exact J4|]. cbn [fst snd]. lia. }
        destruct Hx2 as (rg & G1 & G2). rewrite (CMEM x rg G1 G2). apply (K3 x Hx). apply (d_nw _ _ _ _ _ _ _ _ _ _ _ D).
    - assert (Hj' : chain y' j = Some kj) by (rewrite (d_oth _ _ _ _ _ _ _ _ _ _ _ D j N); exact Hj).
      split; [apply HH; rewrite (cd_oatj j N); exact Hl|]. destruct (Nat.eq_dec j 0) as [Ej|Nj].
      + (* the egg, while chain i works inside its structure *)
        assert (Ni : i <> 0%nat) by congruence. destruct (struct_in e y O Co i k Hk Ni) as (ke & d & us & S1 & S2 & S3 & S4 & S5 & S6).
        assert (ke = kj) by congruence. subst ke. rewrite <- Ej in S2.
        assert (NS : b <> mkBlk (cpool (kg k)) CHAIN_SIZE d). { intros ->. apply Hr. right. exists i, k. auto. }
        assert (ST : forall x, private (kg kj) (set_mem (kst kj) (ymem y)) (oat O j) x -> ymem y' x = ymem y x).
        { intros x ((bb & z & Hbz & Hx) & HP). apply (cd_bytes j kj x (bb, z) Hj N); [apply RG; destruct Hbz as [K|K]; [left; symmetry; exact K|right; exact K]|exact Hx|].
          intros _ Hin. apply (HP _ us _ S2 S3). cbn [bp]. unfold POOL_SIZE, CHAIN_SIZE in *. lia. }
        assert (VS : valid (kg kj) (set_mem (kst kj) (ymem y)) (oat O j) (OStore (ymem y'))) by exact ST.
        destruct (step_kept _ _ _ _ 0%nat 0 _ b u Rj VS eq_refl Hl (fun K => K) HU) as (_ & K2 & _). split.
        * exists kj. split; [exact Hj'|]. rewrite clear_mem, set_mem_twice, (clear_idem _ (c_ev _ _ _ Co j kj Hj)) in K2. exact K2.
        * intros x Hx. apply (cd_bytes j kj x (x1, z1) Hj N); [apply RG; right; exact I4|cbn [fst snd]; lia|]. intros _ Hin.
          destruct (blocks_apart _ _ _ Rj) as (_ & BA). specialize (BA b _ u us (in_or_app _ _ _ (or_introl Hl)) (in_or_app _ _ _ (or_introl S2)) NS HU S3).
          unfold ChainSpec.apart in BA. cbn [fst snd bp] in BA. unfold POOL_SIZE, CHAIN_SIZE in *. lia.
      + assert (AG : agree (srng (set_mem (kst kj) (ymem y))) (ymem y) (ymem y')).
        { intros x b0 z0 H1 H2. apply (cd_bytes j kj x (b0, z0) Hj N H1 H2). intros K. congruence. }
        split.
        * exists kj. split; [exact Hj'|]. pose proof (usable_local _ (ymem y') _ _ WD AG HU) as K. rewrite set_mem_twice in K. exact K.
        * intros x Hx. apply (cd_bytes j kj x (x1, z1) Hj N); [apply RG; right; exact I4|cbn [fst snd]; lia|]. intros K. congruence.
  Qed.
  Lemma called_eff : (forall h n gr, c' <> ORealloc h 0 n gr) ->
    Eff e y O y' O' (target c') (fun j b => j = i /\ new_blk (oat O i) c' r b).
  Proof.
    intros NP. constructor.
    - exact (d_inv _ _ _ _ _ _ _ _ _ _ _ D).
    - exact (d_lt _ _ _ _ _ _ _ _ _ _ _ D).
    - intros j b u H1 H2 H3. apply (cd_keep j b u H1 (or_introl H2) H3).
    - intros j b ((kj & Hj) & Hl & Hr). destruct (cd_back j kj Hj) as (k0 & K0 & _). rewrite cd_reserved in Hr. destruct (Nat.eq_dec j i) as [->|N].
      + rewrite cd_oati in Hl. destruct (next_new _ _ _ _ _ NP Hl) as [(K1 & K2)|K]; [left|right; auto]. split; [|exact K2]. split; [eauto|auto].
      + rewrite (cd_oatj j N) in Hl. assert (HO : holds y O j b) by (split; [eauto|auto]).
        left. split; [exact HO|]. intros HT. destruct (d_step _ _ _ _ _ _ _ _ _ _ _ D) as (fuel & m & E & V & R & _ & _ & _).
        assert (TL : exists n d, In (mkBlk (bp b) n d) (live (oat O i))).
        { destruct c' as [d n gr|p|h p n gr|bb z|x v|p| |mm]; cbn [target] in HT; try contradiction; rewrite HT in *; cbn [valid] in V.
          - destruct V as [V|V]; [|exact V]. destruct (held_size _ _ _ _ _ SI HO) as (u & _ & _ & _ & P & _). lia.
          - destruct V as ([V|(n0 & d0 & V & _)] & _); [|eauto]. exfalso. apply (NP h n gr). rewrite V. reflexivity.
          - exact V. }
        destruct TL as (n & d & TL). destruct (Nat.eq_dec i 0) as [Ei|Ni].
        * assert (HI : holds y O i (mkBlk (bp b) n d)). { split; [eauto|]. split; [exact TL|exact Hr]. }
          destruct (held_unique _ _ _ _ _ _ _ SI HO HI eq_refl). congruence.
        * assert (HI : holds y O i (mkBlk (bp b) n d)). { split; [eauto|]. split; [exact TL|exact Hr]. }
          destruct (held_unique _ _ _ _ _ _ _ SI HO HI eq_refl). congruence.
  Qed.
  Lemma called_quiet : asks c = None \/ i = 0%nat -> no_answer c -> Quiet y O y' O'.
  Proof.
    intros HA NA. destruct (d_ask _ _ _ _ _ _ _ _ _ _ _ D HA) as (EC & IN). split; [exact IN|].
    intros j kj rg Hj Hr. destruct (cd_back j kj Hj) as (k0 & K0 & _). split; [eauto|]. destruct (Nat.eq_dec j i) as [->|N]; [|rewrite (cd_oatj j N) in Hr; exact Hr].
    rewrite cd_oati, next_segs in Hr by apply (d_nr _ _ _ _ _ _ _ _ _ _ _ D). apply (puts_only (sevs s')); [|exact Hr].
    destruct (d_step _ _ _ _ _ _ _ _ _ _ _ D) as (fuel & m & E & _). rewrite EC in E. exact (no_gets _ _ _ _ _ _ NA E).
  Qed.
End Call.
