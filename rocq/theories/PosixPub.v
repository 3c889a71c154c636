(** Stores of the program, creation of chains, lookup of blocks. *)
From Verif Require Import Word Res Mem SizeClassModel ChainModel ChainInv ChainSpec ChainEv ChainProps ChainCap ChainSrc ChainPut ChainMore ChainCore ChainFuel ChainTrace ChainWalk
  RegionModel RegionSpec RegionProofs LightModel LightSpec LightProofs PosixModel PosixSpec PosixChain PosixInv PosixSrc PosixLocal PosixMid PosixCall PosixRun PosixEff PosixFun.
From Coq Require Import ZArith List Bool Lia.
Import ListNotations.
Open Scope Z_scope.

(** ** Stores into blocks of the program *)
Lemma held_outside e y O j b u x i k : SInv e y O -> holds y O j b -> size_of y j (bp b) u -> bp b <= x < bp b + u -> chain y i = Some k ->
  ~ private (kg k) (set_mem (kst k) (ymem y)) (oat O i) x.
Proof.
  intros S ((kj & Hj) & Hl & Hr) (kj' & Hj' & HU) Hx Hk ((b0 & z0 & Hb0 & Hx0) & HP). rewrite Hj in Hj'. injection Hj' as <-. pose proof (sinv_cor _ _ _ S) as Co.
  destruct (Nat.eq_dec i j) as [->|N].
  { rewrite Hk in Hj. injection Hj as <-. exact (HP b u _ Hl HU Hx). }
  pose proof (c_reach _ _ _ Co j kj Hj) as Rj. destruct (blocks_inside _ _ _ Rj b) as (u1 & x1 & z1 & I1 & I2 & I3 & I4 & I5 & I6); [apply in_or_app; left; exact Hl|].
  pose proof (usable_eq _ _ _ _ HU I1). subst u1. destruct Hb0 as [Hb0|Hb0].
  - injection Hb0 as <- <-. destruct (Nat.eq_dec i 0) as [Ei|Ni].
    + assert (Nj : j <> 0%nat) by congruence. destruct (c_away _ _ _ Co j kj _ Nj Hj I4) as (A & _). destruct (kg_cases _ _ _ _ _ Co Hk) as (_ & _ & _ & EG). rewrite (EG Ei) in Hx0.
      cbn [egg_cfg cpool] in Hx0. unfold ChainSpec.apart in A. cbn [fst snd] in A. lia.
    + pose proof (pool_in e y O Co i k Hk Ni) as PI. destruct (Nat.eq_dec j 0) as [Ej|Nj].
      * destruct (struct_in e y O Co i k Hk Ni) as (ke & d & us & S1 & S2 & S3 & S4 & S5 & S6). rewrite <- Ej, Hj in S1. injection S1 as <-. rewrite <- Ej in S2.
        assert (NS : b <> mkBlk (cpool (kg k)) CHAIN_SIZE d) by (intros ->; apply Hr; right; exists i, k; auto).
        destruct (blocks_apart _ _ _ Rj) as (_ & BA). specialize (BA b _ u us (in_or_app _ _ _ (or_introl Hl)) (in_or_app _ _ _ (or_introl S2)) NS HU S3).
        unfold ChainSpec.apart in BA. cbn [fst snd bp] in BA. unfold POOL_SIZE, CHAIN_SIZE in *. lia.
      * destruct (c_away _ _ _ Co j kj _ Nj Hj I4) as (_ & A). unfold ChainSpec.apart in A. cbn [fst snd] in A. unfold EGG_MEM in *. lia.
  - destruct (Nat.eq_dec i 0) as [Ei|Ni].
    + assert (Nj : j <> 0%nat) by congruence. destruct (c_away _ _ _ Co j kj _ Nj Hj I4) as (_ & A). rewrite Ei, (c_eseg _ _ _ Co) in Hb0. destruct Hb0 as [Hb0|[]]. injection Hb0 as <- <-.
      unfold ChainSpec.apart in A. cbn [fst snd] in A. lia.
    + destruct (Nat.eq_dec j 0) as [Ej|Nj].
      * destruct (c_away _ _ _ Co i k _ Ni Hk Hb0) as (_ & A). rewrite Ej, (c_eseg _ _ _ Co) in I4. destruct I4 as [I4|[]]. injection I4 as <- <-.
        unfold ChainSpec.apart in A. cbn [fst snd] in A. lia.
      * pose proof (c_segs _ _ _ Co i j k kj _ _ Ni Nj N Hk Hj Hb0 I4) as A. unfold ChainSpec.apart in A. cbn [fst snd] in A. lia.
Qed.
Lemma held_in_chains e y O j b u x : SInv e y O -> holds y O j b -> size_of y j (bp b) u -> bp b <= x < bp b + u -> chains_mem e y O x.
Proof.
  intros S ((kj & Hj) & Hl & Hr) (kj' & Hj' & HU) Hx. rewrite Hj in Hj'. injection Hj' as <-. pose proof (sinv_cor _ _ _ S) as Co.
  pose proof (c_reach _ _ _ Co j kj Hj) as Rj. destruct (blocks_inside _ _ _ Rj b) as (u1 & x1 & z1 & I1 & I2 & I3 & I4 & I5 & I6); [apply in_or_app; left; exact Hl|].
  pose proof (usable_eq _ _ _ _ HU I1). subst u1. destruct (reach_rng _ _ _ Rj) as (RG & _).
  apply (chain_rng e y O j kj (x1, z1) x Co Hj); [apply RG; right; exact I4|cbn [fst snd]; lia].
Qed.

(** Changes inside blocks of the program. *)
Definition in_held (y : sys) (O : list obs) (m : mem) : Prop :=
  forall x, m x <> ymem y x -> exists j b u, holds y O j b /\ size_of y j (bp b) u /\ bp b <= x < bp b + u.
Lemma store_private e y O m : SInv e y O -> in_held y O m -> forall i k x, chain y i = Some k -> private (kg k) (set_mem (kst k) (ymem y)) (oat O i) x -> m x = ymem y x.
Proof.
  intros S H i k x Hk HP. destruct (Z.eq_dec (m x) (ymem y x)) as [K|K]; [exact K|]. destruct (H x K) as (j & b & u & H1 & H2 & H3). exfalso.
  exact (held_outside e y O j b u x i k S H1 H2 H3 Hk HP).
Qed.
Lemma sinv_store e y O m : SInv e y O -> in_held y O m -> SInv e (yset_mem y m) O.
Proof.
  intros S H. pose proof (store_private e y O m S H) as P. pose proof S as (out & C & L & M). pose proof (cor_mem e y O m (m_cor _ _ _ _ _ _ _ _ _ M) P) as Co1.
  exists out, C, L. pose proof M as M0. destruct M. constructor; try assumption; [|intros b z []].
  assert (HC : forall b n, In (b, n) C -> forall x, b <= x < b + 16 -> m x = ymem y x).
  { intros b n Hb x Hx. destruct (Z.eq_dec (m x) (ymem y x)) as [K|K]; [exact K|]. exfalso. destruct (H x K) as (j & bb & u & H1 & H2 & H3).
    pose proof (held_in_chains e y O j bb u x S H1 H2 H3) as CM. pose proof (li_in_C _ _ _ _ m_light Hb) as Hm.
    pose proof (okblk_size _ (li_ok _ _ _ m_light _ Hm)) as OK. cbn [snd] in OK. destruct CM as [K1|[K1|(j' & k' & b' & z' & K1 & K2 & K3 & K4)]].
    - apply (egg_outside _ _ _ _ _ _ _ _ _ M0 x (or_introl K1)). exists b, n. split; [exact Hm|lia].
    - apply (egg_outside _ _ _ _ _ _ _ _ _ M0 x (or_intror K1)). exists b, n. split; [exact Hm|lia].
    - assert (Ho : In (b', z') out) by (apply m_out; left; exists j', k'; auto). pose proof (linv_sep _ _ _ (b', z') (b, n) m_light Ho Hb) as SP. unfold disj in SP. cbn [fst snd] in *. lia. }
  change (source (yset_mem y m)) with (lset_mem (source y) m). apply linv_mem; [exact m_light|exact HC|].
  intros b n Hb. apply m_out in Hb as [(j & k & K1 & K2 & K3)|[[]|[]]]. pose proof (seg_header _ _ _ _ _ (c_reach _ _ _ Co1 j k K2) K3) as (K & _). exact K.
Qed.
Lemma store_size e y O m j b u : SInv e y O -> in_held y O m -> In b (live (oat O j)) -> size_of y j (bp b) u -> size_of (yset_mem y m) j (bp b) u.
Proof.
  intros S H Hl (k & Hk & HU). exists k. split; [exact Hk|]. pose proof (sinv_cor _ _ _ S) as Co. pose proof (c_reach _ _ _ Co j k Hk) as R.
  assert (V : valid (kg k) (set_mem (kst k) (ymem y)) (oat O j) (OStore m)) by (intros x HP; exact (store_private e y O m S H j k x Hk HP)).
  destruct (step_kept _ _ _ _ 0%nat 0 _ b u R V eq_refl Hl (fun K => K) HU) as (_ & K2 & _). rewrite clear_mem, set_mem_twice, (clear_idem _ (c_ev _ _ _ Co j k Hk)) in K2. exact K2.
Qed.
Lemma act_store e y O m j0 b0 u0 : SInv e y O -> holds y O j0 b0 -> size_of y j0 (bp b0) u0 -> (forall x, ~ bp b0 <= x < bp b0 + u0 -> m x = ymem y x) ->
  Act e y O (yset_mem y m) O (atT (bp b0)) (fun j b => j = j0 /\ b = b0) [] /\ holds (yset_mem y m) O j0 b0 /\ size_of (yset_mem y m) j0 (bp b0) u0 /\ Quiet y O (yset_mem y m) O.
Proof.
  intros S H0 U0 HM. assert (D : forall x, bp b0 <= x < bp b0 + u0 \/ ~ bp b0 <= x < bp b0 + u0) by (intros x; lia).
  assert (IH : in_held y O m) by (intros x Hx; exists j0, b0, u0; destruct (D x) as [K|K]; [auto|exfalso; exact (Hx (HM x K))]).
  pose proof (sinv_store e y O m S IH) as S1. split; [|split; [exact H0|split; [apply (store_size e y O m j0 b0 u0 S IH (proj1 (proj2 H0)) U0)|split; [intros a Ha; exact Ha|intros j k rg A1 A2; eauto]]]].
  constructor; [|reflexivity|reflexivity|apply life_still; reflexivity]. constructor; [exact S1|reflexivity| |].
  - intros j b u H HT HU. split; [exact H|]. split; [apply (store_size e y O m j b u S IH (proj1 (proj2 H)) HU)|]. intros x Hx. apply HM. intros Hx0.
    assert (NE : (j, b) <> (j0, b0)) by (intros K; injection K as -> ->; apply HT; reflexivity).
    pose proof (held_apart e y O j j0 b b0 u u0 S H H0 HU U0 NE) as A. unfold ChainSpec.apart in A. cbn [fst snd] in A. lia.
  - intros j b H. change (holds y O j b) in H. destruct (Z.eq_dec (bp b) (bp b0)) as [K|K]; [right|left; split; [exact H|exact K]].
    destruct (held_unique e y O j j0 b b0 S H H0 K) as (-> & ->). auto.
Qed.

(** ** Lookup of a block *)
Lemma look e y O p : SInv e y O -> 0 <= p < 2 ^ 48 -> exists b y', lookup e p y = Ok (b, y') /\ SInv e y' O /\
  ymem y' = ymem y /\ ych y' = ych y /\ ytls y' = ytls y /\ ylight y' = ylight y /\ ysrc y' = ysrc y /\ ytr y' = ytr y /\
  ((exists j k z, chain y j = Some k /\ In (b, z) (segs (oat O j)) /\ b <= p < b + z) \/ b = 0 /\ foreign y O p).
Proof.
  intros (out & C & L & M) Hp. pose proof (mid_view _ _ _ _ _ _ _ _ _ M) as RV. destruct (RegionProofs.find_ok _ _ _ RV Hp) as (r & s' & E & H1 & H2 & H3).
  exists r, (yset_regs y (regs s')). unfold lookup. rewrite E. split; [reflexivity|]. split; [|repeat (split; [reflexivity|])].
  - exists out, C, L. destruct M. constructor; try assumption.
    + apply (cor_eq e y); try reflexivity. assumption.
    + exists (hdr s'). pose proof (rinv_frame _ s' _ H1 H2 RV) as K. destruct s'. exact K.
  - pose proof M as M0. destruct H3 as [(x & K1 & K2 & ->)|(-> & K)].
    + left. apply (m_L _ _ _ _ _ _ _ _ _ M) in K1 as [(j & k & J1 & J2 & J3)|([] & _)]. exists j, k, (ss x). unfold RegionSpec.inside in K2. auto.
    + right. split; [reflexivity|]. split; [exact Hp|]. intros i k b z J1 J2 J3. apply (K (mkSeg b z (cpool (kg k)))); [|exact J3]. apply (m_L _ _ _ _ _ _ _ _ _ M). left. exists i, k. auto.
Qed.
Lemma owner_ok a : forall l j k, nth j l None = Some k -> cpool (kg k) = a ->
  (forall j' k', nth j' l None = Some k' -> cpool (kg k') = a -> j' = j) -> owner a l = Some j.
Proof.
  induction l as [|x l IH]; intros j k H E U; [destruct j; discriminate|]. cbn [owner]. destruct x as [kx|].
  - destruct (Z.eqb_spec (cpool (kg kx)) a) as [K|K]; [f_equal; exact (U 0%nat kx eq_refl K)|]. destruct j as [|j]; [cbn in H; injection H as ->; congruence|].
    rewrite (IH j k H E); [reflexivity|]. intros j' k' H1 H2. pose proof (U (Datatypes.S j') k' H1 H2) as X. congruence.
  - destruct j as [|j]; [discriminate|]. rewrite (IH j k H E); [reflexivity|]. intros j' k' H1 H2. pose proof (U (Datatypes.S j') k' H1 H2) as X. congruence.
Qed.
Lemma find_it e y O j k b z : SInv e y O -> chain y j = Some k -> In (b, z) (segs (oat O j)) -> find_chain e b y = Ok j.
Proof.
  intros S Hk Hb. pose proof S as (out & C & L & M). pose proof (m_cor _ _ _ _ _ _ _ _ _ M) as Co. unfold find_chain. destruct (seg_hdr _ _ _ _ _ _ _ _ _ M j k b z Hk Hb) as (_ & ->).
  assert (Pos : 0 < cpool (kg k)).
  { destruct (Nat.eq_dec j 0) as [Ej|Nj].
    - destruct (kg_cases _ _ _ _ _ Co Hk) as (_ & _ & _ & EG). rewrite (EG Ej). apply (m_env _ _ _ _ _ _ _ _ _ M).
    - pose proof (pool_in e y O Co j k Hk Nj). destruct (m_env _ _ _ _ _ _ _ _ _ M) as (_ & _ & W & _). lia. }
  destruct (Z.eqb_spec (cpool (kg k)) 0) as [K|K]; [lia|]. rewrite (owner_ok _ _ j k Hk eq_refl); [reflexivity|].
  intros j' k' H1 H2. exact (c_inj _ _ _ Co j' j k' k H1 Hk H2).
Qed.
