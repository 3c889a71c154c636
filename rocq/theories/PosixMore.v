(** Consequences for the public functions. *)
From Verif Require Import Word Res Mem SizeClassModel ChainModel Wp ChainInv ChainSpec ChainStep ChainRefill ChainEv ChainProps ChainCap ChainSrc ChainPut ChainMore ChainCore ChainFuel ChainTrace ChainWalk
  RegionModel RegionSpec RegionProofs LightModel LightSpec LightProofs PosixModel PosixSpec PosixChain PosixInv PosixSrc PosixLocal PosixMid PosixCall PosixRun PosixEff PosixFun PosixPub PosixNew PosixApi PosixCopy
  PosixRealloc PosixStart PosixStep.
From Coq Require Import ZArith List Bool Lia.
Import ListNotations.
Open Scope Z_scope.

Lemma ptr_inv x er rp y' : ptr x = Ok (er, rp, y') -> exists r, x = Ok (r, y') /\ er = 0 /\ rp = Some r.
Proof. unfold ptr. destruct x as [[r y]| | |]; cbn; intros E; try discriminate. injection E as <- <- <-. eauto. Qed.
Lemma unit_inv x er rp y' : unit_ x = Ok (er, rp, y') -> exists r, x = Ok (r, y') /\ er = 0 /\ rp = None.
Proof. unfold unit_. destruct x as [[r y]| | |]; cbn; intros E; try discriminate. injection E as <- <- <-. eauto. Qed.

Lemma calls_safe e y O c : sreach e y O -> pvalid e y O c ->
  (exists f0 a, forall f, (f0 <= f)%nat -> pexec f e c y = Ok a) /\ forall f, pexec f e c y = OutOfFuel \/ exists a, pexec f e c y = Ok a.
Proof.
  intros R V. destruct (runs_pexec e y O (sreach_sinv _ _ _ R) c V) as (f0 & a & _ & H1 & H2). split; [exists f0, a; exact H1|].
  intros f. destruct (H2 f) as [K|K]; [left; exact K|right; eauto].
Qed.
Lemma start_safe e m : wf_env e -> (exists f0 y, forall f, (f0 <= f)%nat -> sys_init f e m = Ok y) /\ forall f, sys_init f e m = OutOfFuel \/ exists y, sys_init f e m = Ok y.
Proof.
  intros W. destruct (runs_start e m W) as (f0 & a & _ & H1 & H2). split; [exists f0, a; exact H1|]. intros f. destruct (H2 f) as [K|K]; [left; exact K|right; eauto].
Qed.

Lemma blocks_disjoint e y O i j b b' u u' : sreach e y O -> holds y O i b -> holds y O j b' -> size_of y i (bp b) u -> size_of y j (bp b') u' ->
  (i, b) <> (j, b') -> apart (bp b, u) (bp b', u').
Proof. intros R. exact (held_apart e y O i j b b' u u' (sreach_sinv _ _ _ R)). Qed.

Lemma block_place e y O i b : sreach e y O -> holds y O i b -> exists u x z, size_of y i (bp b) u /\ bn b <= u /\ In (x, z) (segs (oat O i)) /\ x <= bp b /\ bp b + u <= x + z /\
  (1 < bd b -> bp b mod bd b = 0).
Proof.
  intros R H. pose proof (sreach_sinv _ _ _ R) as S. destruct H as ((k & Hk) & HL & HR). pose proof (c_reach _ _ _ (sinv_cor _ _ _ S) i k Hk) as RC. pose proof (in_or_app _ (pend (oat O i)) _ (or_introl HL)) as HB.
  destruct (blocks_inside _ _ _ RC b HB) as (u & x & z & I1 & I2 & I3 & I4 & I5 & I6). exists u, x, z. split; [exists k; auto|]. split; [lia|]. split; [exact I4|]. split; [lia|]. split; [lia|].
  exact (proj1 (blocks_aligned _ _ _ RC b HB)).
Qed.
Lemma chains_disjoint e y O i j ki kj r1 r2 : sreach e y O -> i <> j -> chain y i = Some ki -> chain y j = Some kj -> In r1 (segs (oat O i)) -> In r2 (segs (oat O j)) -> apart r1 r2.
Proof.
  intros R N Hi Hj H1 H2. pose proof (sinv_cor _ _ _ (sreach_sinv _ _ _ R)) as Co.
  destruct (Nat.eq_dec i 0) as [->|Ni]; [|destruct (Nat.eq_dec j 0) as [->|Nj]].
  - rewrite (c_eseg _ _ _ Co) in H1. destruct H1 as [<-|[]]. pose proof (proj2 (c_away _ _ _ Co j kj r2 (not_eq_sym N) Hj H2)) as K. unfold apart in *. cbn [fst snd] in *. lia.
  - rewrite (c_eseg _ _ _ Co) in H2. destruct H2 as [<-|[]]. exact (proj2 (c_away _ _ _ Co i ki r1 Ni Hi H1)).
  - exact (c_segs _ _ _ Co i j ki kj r1 r2 Ni Nj N Hi Hj H1 H2).
Qed.
Lemma one_thread e y O t t' i : sreach e y O -> ytls y t = Some i -> ytls y t' = Some i -> i <> 0%nat -> t = t'.
Proof. intros R. exact (c_uniq _ _ _ (sinv_cor _ _ _ (sreach_sinv _ _ _ R)) t t' i). Qed.

Lemma call_effect e y O c fuel er rp y' : sreach e y O -> pvalid e y O c -> pexec fuel e c y = Ok (er, rp, y') ->
  let O' := obs_after O (ytr y') in
  (forall j b u, holds y O j b -> ~ frees c (bp b) -> size_of y j (bp b) u ->
     holds y' O' j b /\ size_of y' j (bp b) u /\ forall x, bp b <= x < bp b + u -> ~ writes c x -> ymem y' x = ymem y x) /\
  (forall j b, holds y' O' j b -> (holds y O j b /\ ~ frees c (bp b)) \/ (rp = Some (bp b) /\ gives c = Some (bn b))) /\
  (forall r, rp = Some r -> r <> 0 -> (forall j b, holds y O j b -> ~ frees c (bp b) -> bp b <> r) /\ exists j b, holds y' O' j b /\ bp b = r /\ gives c = Some (bn b)).
Proof.
  intros R V E O'. pose proof (pexec_done _ _ _ _ _ _ _ _ (sreach_sinv _ _ _ R) V E) as D. split; [exact (dn_keep _ _ _ _ _ _ _ D)|]. split; [exact (dn_new _ _ _ _ _ _ _ D)|exact (dn_held _ _ _ _ _ _ _ D)].
Qed.
Lemma call_null e y O c fuel er y' : sreach e y O -> pvalid e y O c -> pexec fuel e c y = Ok (er, Some 0, y') -> gives c <> None ->
  (exists t, by_thread c = Some t /\ ytls y t = Some 0%nat) \/ (exists b, holds y O 0 b /\ frees c (bp b)) \/ (exists t d n os, c = PMemalign t d n os /\ is_pow2 d = false).
Proof. intros R V E. exact (dn_null _ _ _ _ _ _ _ (pexec_done _ _ _ _ _ _ _ _ (sreach_sinv _ _ _ R) V E) eq_refl). Qed.

(** ** free *)
Lemma target_new e i p x j c r evs : In x (new_trace e i p) -> x = TCall j c r evs -> forall q, ~ target c q.
Proof. intros [<-|[<-|[]]] K; [discriminate|]. injection K as _ <- _ _. intros q []. Qed.
Lemma entry_free e y t l u0 x j c r evs : entry e y t l u0 -> In x u0 -> x = TCall j c r evs -> forall q, ~ target c q.
Proof. intros [(_ & ->)|(_ & _ & _ & p & ->)]; [intros []|]. apply target_new. Qed.

Lemma free_routed e y O t p i n d k fuel er rp y' : sreach e y O -> thread_ok e y O t -> holds y O i (mkBlk p n d) -> chain y i = Some k -> pexec fuel e (PFree t p) y = Ok (er, rp, y') ->
  exists t1 t2 c r evs, ytr y' = t1 ++ TCall i c r evs :: t2 /\
    ((i = 0%nat \/ kdes k = true \/ ytls y t = Some i) /\ c = OFree p \/ (i <> 0%nat /\ kdes k = false /\ ytls y t <> Some i) /\ c = ORemote p) /\
    (forall j c r evs, In (TCall j c r evs) (t1 ++ t2) -> ~ target c p).
Proof.
  intros R T H Hk E. pose proof (sreach_sinv _ _ _ R) as S. pose proof (sinv_cor _ _ _ S) as Co. unfold pexec in E. apply unit_inv in E as (r0 & E & _ & _).
  destruct (runs_any _ _ _ _ (runs_free e (yset_tr y []) O t p i n d (sinv_start _ _ _ S) T H) E) as (O' & tr & F).
  pose proof (a_tr _ _ _ _ _ _ _ _ (fr_act _ _ _ _ _ _ _ _ _ F)) as ET. cbn [yset_tr ytr] in ET. rewrite app_nil_r in ET.
  destruct (fr_tls _ _ _ _ _ _ _ _ _ F) as (l & u0 & EN & _ & k0 & w & u & r & evs & r1 & ev1 & K1 & K2 & K3). change (chain y i = Some k0) in K1. rewrite Hk in K1. injection K1 as <-.
  rewrite ET. exists u, (TCall l OPurge r1 ev1 :: u0). eexists. exists r, evs. split; [exact K3|]. split.
  - assert (SH : ksh k = true <-> (i = 0%nat \/ kdes k = true)).
    { destruct (Nat.eq_dec i 0) as [Ei|Ni].
      - subst i. destruct (c_egg _ _ _ Co) as (k0 & J1 & _ & J2). rewrite Hk in J1. injection J1 as <-. tauto.
      - destruct (c_cfg _ _ _ Co i k Hk Ni) as (_ & J). rewrite J. tauto. }
    assert (LO : Nat.eqb i l = true <-> ytls y t = Some i).
    { rewrite Nat.eqb_eq. destruct EN as [(J & _)|(J1 & J2 & _)]; cbn [yset_tr ytls] in *; [rewrite J; split; congruence|]. cbn [yset_tr ych] in J2.
      pose proof (chain_lt _ _ _ Hk) as J. split; [lia|congruence]. }
    destruct (ksh k) eqn:EK; [left; cbn [orb]; split; [destruct (proj1 SH eq_refl) as [J|J]; tauto|reflexivity]|]. cbn [orb]. destruct (Nat.eqb i l) eqn:EL.
    + left. split; [right; right; apply LO; reflexivity|reflexivity].
    + right. split; [|reflexivity]. split; [intros J; enough (false = true) by discriminate; apply SH; left; exact J|].
      split; [destruct (kdes k); [enough (false = true) by discriminate; apply SH; right; reflexivity|reflexivity]|].
      intros J. apply LO in J. discriminate.
  - intros j c r2 ev2 HI. apply in_app_iff in HI as [HI|[HI|HI]].
    + destruct K2 as (v & -> & HV). apply in_app_iff in HI as [HI|HI]; [destruct w; [destruct HI as [HI|[]]; discriminate|destruct HI]|].
      destruct HV as [->|(Ni & _ & r3 & ->)]; [destruct HI|]. destruct HI as [HI|[HI|[]]]; [discriminate|]. injection HI as _ <- _ _. cbn [target]. intros ->.
      apply (proj2 (proj2 H)). right. exists i, k. auto.
    + injection HI as _ <- _ _. intros [].
    + exact (entry_free _ _ _ _ _ _ _ _ _ _ EN HI eq_refl p).
Qed.

(** ** malloc *)
Lemma alloc_own e y O t d n r y' O' i u : SInv e y O -> Alloced e (yset_tr y []) O t d n r y' O' i u -> r <> 0 ->
  holds y' (obs_after O (ytr y')) i (mkBlk r n d) /\ ytls y' t = Some i /\ (forall j, ytls y t = Some j -> j = i) /\ (ytls y t = None -> i = length (ych y)).
Proof.
  intros S A Nr. pose proof (al_act _ _ _ _ _ _ _ _ _ _ _ A) as AC. pose proof (a_tr _ _ _ _ _ _ _ _ AC) as ET. cbn [yset_tr ytr] in ET. rewrite app_nil_r in ET.
  rewrite ET, <- (a_obs _ _ _ _ _ _ _ _ AC). split; [exact (al_held _ _ _ _ _ _ _ _ _ _ _ A Nr)|]. split; [rewrite (al_tls _ _ _ _ _ _ _ _ _ _ _ A); unfold zupd; rewrite Z.eqb_refl; reflexivity|].
  destruct (al_tr _ _ _ _ _ _ _ _ _ _ _ A) as (u0 & r0 & ev0 & gr & ev & EN & _). destruct EN as [(K & _)|(K1 & K2 & _)]; cbn [yset_tr ytls ych] in *.
  - split; intros; congruence.
  - split; intros; congruence.
Qed.
Lemma malloc_own e y O t n os fuel er r y' : sreach e y O -> pvalid e y O (PMalloc t n os) -> pexec fuel e (PMalloc t n os) y = Ok (er, Some r, y') -> r <> 0 ->
  exists i, holds y' (obs_after O (ytr y')) i (mkBlk r (one n) (ehook e (one n))) /\ ytls y' t = Some i /\ (forall j, ytls y t = Some j -> j = i) /\ (ytls y t = None -> i = length (ych y)).
Proof.
  intros R (V1 & V2) E Nr. pose proof (sreach_sinv _ _ _ R) as S. unfold pexec in E. apply ptr_inv in E as (r0 & E & _ & ER). injection ER as <-.
  destruct (runs_any _ _ _ _ (runs_alloc e (yset_tr y []) O os t (ehook e) n (sinv_start _ _ _ S) V1 (ask_pos _ _ _ _ _ V2) (ask_tr _ _ _ _ _ V2)) E) as (O' & i & u & A).
  exists i. exact (alloc_own _ _ _ _ _ _ _ _ _ _ _ S A Nr).
Qed.

(** ** calloc *)
Lemma calloc_zero e y O t a b os fuel er r y' : sreach e y O -> pvalid e y O (PCalloc t a b os) -> a * b < 2 ^ 64 -> pexec fuel e (PCalloc t a b os) y = Ok (er, Some r, y') ->
  r <> 0 /\ (exists i u, holds y' (obs_after O (ytr y')) i (mkBlk r (one (a * b)) (ehook e (one (a * b)))) /\ size_of y' i r u /\ a * b <= u) /\ forall x, r <= x < r + a * b -> ymem y' x = 0.
Proof.
  intros R (V1 & V2 & V3 & V4 & V5) HL E. pose proof (sreach_sinv _ _ _ R) as S. unfold pexec in E. apply ptr_inv in E as (r0 & E & _ & ER). injection ER as <-.
  destruct (runs_any _ _ _ _ (runs_calloc e (yset_tr y []) O os t a b (sinv_start _ _ _ S) V1 (proj1 V2) (proj1 V3) V4 V5) E) as (O' & i & u & A & Ni & Z0).
  assert (EW : w64 (a * b) = a * b) by (unfold w64; rewrite W64_val; rewrite Z.mod_small; [reflexivity|change (2 ^ 64) with 18446744073709551616 in *; nia]). rewrite EW in *.
  pose proof (al_null _ _ _ _ _ _ _ _ _ _ _ A Ni) as Nr. split; [exact Nr|]. split; [|exact Z0]. destruct (alloc_size _ _ _ _ _ _ _ _ _ _ _ A Nr) as (v & K1 & K2).
  exists i, v. split; [exact (proj1 (alloc_own _ _ _ _ _ _ _ _ _ _ _ S A Nr))|]. split; [exact K1|]. unfold one in K2. destruct (Z.eqb_spec (a * b) 0); lia.
Qed.

(** ** Aligned allocation *)
Lemma is_pow2_ok d : 0 <= d -> (is_pow2 d = true <-> exists k, 0 <= k /\ d = 2 ^ k).
Proof.
  intros Hd. unfold is_pow2. rewrite andb_true_iff, negb_true_iff, Z.eqb_neq, Z.eqb_eq. split.
  - intros (N & L). exists (Z.log2 d). split; [apply Z.log2_nonneg|]. destruct (Z.log2_spec d ltac:(lia)) as (L1 & L2). destruct (Z.eq_dec d (2 ^ Z.log2 d)) as [K|K]; [exact K|]. exfalso.
    pose proof (Z.log2_nonneg d) as LN. assert (B1 : Z.testbit d (Z.log2 d) = true) by (apply Z.bit_log2; lia).
    assert (EL : Z.log2 (d - 1) = Z.log2 d) by (apply Z.log2_unique; [exact LN|lia]). assert (B2 : Z.testbit (d - 1) (Z.log2 d) = true) by (rewrite <- EL; apply Z.bit_log2; pose proof (Z.pow_pos_nonneg 2 (Z.log2 d)); lia).
    assert (B3 : Z.testbit (Z.land d (d - 1)) (Z.log2 d) = true) by (rewrite Z.land_spec, B1, B2; reflexivity). rewrite L, Z.bits_0 in B3. discriminate.
  - intros (k & Hk & ->). split; [pose proof (Z.pow_pos_nonneg 2 k); lia|]. replace (2 ^ k - 1) with (Z.ones k) by (rewrite Z.ones_equiv; lia). rewrite Z.land_ones by exact Hk. apply Z.mod_same. pose proof (Z.pow_pos_nonneg 2 k); lia.
Qed.
Lemma memalign_own e y O t d n os fuel r y' : sreach e y O -> thread_ok e y O t -> ask_ok e y d (one n) os -> p_memalign fuel e os t d n (yset_tr y []) = Ok (r, y') -> r <> 0 ->
  exists i u, holds y' (obs_after O (ytr y')) i (mkBlk r (one n) d) /\ size_of y' i r u /\ n <= u /\ (1 < d -> r mod d = 0).
Proof.
  intros R V1 V2 E Nr. pose proof (sreach_sinv _ _ _ R) as S.
  destruct (runs_any _ _ _ _ (runs_alloc e (yset_tr y []) O os t (fun _ => d) n (sinv_start _ _ _ S) V1 (ask_pos _ _ _ _ _ V2) (ask_tr _ _ _ _ _ V2)) E) as (O' & i & u & A).
  destruct (alloc_size _ _ _ _ _ _ _ _ _ _ _ A Nr) as (v & K1 & K2). destruct (alloc_own _ _ _ _ _ _ _ _ _ _ _ S A Nr) as (K3 & _). exists i, v. split; [exact K3|]. split; [exact K1|].
  split; [unfold one in K2; destruct (Z.eqb_spec n 0); lia|]. pose proof (al_held _ _ _ _ _ _ _ _ _ _ _ A Nr) as ((k & Hk) & HL & _).
  exact (proj1 (blocks_aligned _ _ _ (c_reach _ _ _ (sinv_cor _ _ _ (act_inv _ _ _ _ _ _ _ _ (al_act _ _ _ _ _ _ _ _ _ _ _ A))) i k Hk) _ (in_or_app _ _ _ (or_introl HL)))).
Qed.
Lemma posix_aligned e y O t d n os fuel er rp y' : sreach e y O -> pvalid e y O (PPosixMemalign t d n os) -> pexec fuel e (PPosixMemalign t d n os) y = Ok (er, rp, y') ->
  er = 0 /\ exists r, rp = Some r /\ (r = 0 -> ytls y t = Some 0%nat) /\
    (r <> 0 -> exists i u, holds y' (obs_after O (ytr y')) i (mkBlk r (one n) d) /\ size_of y' i r u /\ n <= u /\ (1 < d -> r mod d = 0)).
Proof.
  intros R V E. pose proof (call_null e y O (PPosixMemalign t d n os) fuel er y' R V) as NL. destruct V as (V0 & V1 & V2). pose proof E as E'. unfold pexec in E. rewrite V0 in E. cbn [Z.eqb negb andb] in E.
  apply ptr_inv in E as (r & E & -> & ->). split; [reflexivity|]. exists r. split; [reflexivity|]. split.
  - intros ->. destruct (NL E' ltac:(discriminate)) as [(t' & K1 & K2)|[(b & _ & K)|(t' & d' & n' & os' & K & _)]]; [cbn [by_thread] in K1; congruence|destruct K|discriminate].
  - intros Nr. exact (memalign_own e y O t d n os fuel r y' R V1 V2 E Nr).
Qed.
Lemma posix_small d fuel e t n os y : d mod 8 <> 0 -> (exists k, 0 <= k /\ d = 2 ^ k) -> pexec fuel e (PPosixMemalign t d n os) y = Ok (EINVAL, None, yset_tr y []).
Proof.
  intros N (k & Hk & ->). unfold pexec. destruct (Z.eqb_spec (2 ^ k mod 8) 0) as [K|_]; [contradiction|]. cbn [negb andb].
  replace (is_pow2 (2 ^ k)) with true; [reflexivity|]. symmetry. apply is_pow2_ok; [apply Z.pow_nonneg; lia|eauto].
Qed.
Lemma posix_accepts d fuel e t n os y er rp y' : 0 <= d -> (forall k, 0 <= k -> d <> 2 ^ k) -> pexec fuel e (PPosixMemalign t d n os) y = Ok (er, rp, y') -> er = 0 /\ exists r, rp = Some r.
Proof.
  intros Hd N E. unfold pexec in E. destruct (is_pow2 d) eqn:K; [apply is_pow2_ok in K as (k & K1 & K2); [exfalso; exact (N k K1 K2)|exact Hd]|]. rewrite andb_false_r in E.
  apply ptr_inv in E as (r & _ & -> & ->). eauto.
Qed.
Lemma posix_codes d fuel e t n os y er rp y' : pexec fuel e (PPosixMemalign t d n os) y = Ok (er, rp, y') -> er = 0 \/ er = EINVAL.
Proof.
  intros E. unfold pexec in E. destruct (negb (d mod 8 =? 0) && is_pow2 d); [injection E as <- _ _; right; reflexivity|]. apply ptr_inv in E as (r & _ & -> & _). left. reflexivity.
Qed.

(** ** Destruction of chains *)
Lemma destroy_step e y O c fuel er rp y' i k : sreach e y O -> pvalid e y O c -> pexec fuel e c y = Ok (er, rp, y') -> chain y i = Some k -> i <> 0%nat ->
  let O' := obs_after O (ytr y') in
  (In (TDestroy i) (ytr y') <-> dying y c i k /\ segs (oat O i) <> [] /\ segs (oat O' i) = []) /\ (chain y' i = None <-> In (TDestroy i) (ytr y')) /\
  (forall k', chain y' i = Some k' -> (kdes k' = true <-> dying y c i k)) /\
  (In (TDestroy i) (ytr y') -> exists t1 r t2, ytr y' = t1 ++ TDestroy i :: TCall 0 (OFree (cpool (kg k))) r [] :: t2 /\ idle i t1 /\ ~ In (TDestroy i) t2).
Proof.
  intros R V E Hk Ni O'. pose proof (pexec_done _ _ _ _ _ _ _ _ (sreach_sinv _ _ _ R) V E) as D. fold O' in D.
  destruct (dn_live _ _ _ _ _ _ _ D i k Hk) as [(k' & K1 & _ & K3 & K4 & K5)|(K1 & _ & K3 & K4 & K5)].
  - split; [split; [contradiction|]|split; [split; [congruence|contradiction]|split; [intros k0 J; rewrite K1 in J; injection J as <-; exact K3|contradiction]]].
    intros (J1 & J2 & J3). exfalso. apply J2. apply (K4 J1 Ni). exact J3.
  - assert (HI : In (TDestroy i) (ytr y')) by (destruct K5 as (t1 & r & t2 & -> & _); apply in_or_app; right; left; reflexivity).
    split; [split; [|intros _; exact HI]|split; [split; [intros _; exact HI|intros _; exact K4]|split; [congruence|intros _; exact K5]]]. intros _. split; [exact K1|]. split; [exact K3|].
    rewrite (c_dead _ _ _ (sinv_cor _ _ _ (dn_inv _ _ _ _ _ _ _ D)) i K4). reflexivity.
Qed.

Lemma later_sreach e y O tr y' O' : sreach e y O -> later e y O tr y' O' -> sreach e y' O'.
Proof. intros R L. induction L as [|tr y1 O1 fuel c r y2 L IH V E]; [exact R|]. eapply sreach_step; [exact IH|exact V|exact E]. Qed.

Lemma idle_app i t1 t2 : idle i t1 -> idle i t2 -> idle i (t1 ++ t2).
Proof. intros H1 H2 x H. apply in_app_iff in H as [H|H]; [exact (H1 x H)|exact (H2 x H)]. Qed.
Lemma later_len e y O tr y' O' : sreach e y O -> later e y O tr y' O' -> (length (ych y) <= length (ych y'))%nat.
Proof.
  intros R L. induction L as [|tr y1 O1 fuel c [er rp] y2 L IH V E]; [lia|]. pose proof (pexec_done _ _ _ _ _ _ _ _ (sreach_sinv _ _ _ (later_sreach _ _ _ _ _ _ R L)) V E) as D.
  pose proof (dn_len _ _ _ _ _ _ _ D). lia.
Qed.
Lemma later_dead e y O tr y' O' i : sreach e y O -> later e y O tr y' O' -> (i < length (ych y))%nat -> chain y i = None -> chain y' i = None /\ idle i tr /\ forall t, ytls y' t <> Some i.
Proof.
  intros R L Hi H. assert (K : chain y' i = None /\ idle i tr).
  { induction L as [|tr y1 O1 fuel c [er rp] y2 L IH V E]; [split; [exact H|intros x []]|]. destruct IH as (H1 & H2). pose proof (pexec_done _ _ _ _ _ _ _ _ (sreach_sinv _ _ _ (later_sreach _ _ _ _ _ _ R L)) V E) as D.
    pose proof (later_len _ _ _ _ _ _ R L) as LL. destruct (dn_dead _ _ _ _ _ _ _ D i) as (K1 & K2); [lia|exact H1|]. split; [exact K1|apply idle_app; assumption]. }
  destruct K as (K1 & K2). split; [exact K1|]. split; [exact K2|]. intros t J. destruct (c_tls _ _ _ (sinv_cor _ _ _ (sreach_sinv _ _ _ (later_sreach _ _ _ _ _ _ R L))) t i J) as (k & J' & _). congruence.
Qed.

Lemma later_mark e y O tr y' O' i k : sreach e y O -> chain y i = Some k -> i <> 0%nat -> kdes k = true -> later e y O tr y' O' ->
  (exists k', chain y' i = Some k' /\ kg k' = kg k /\ kdes k' = true /\ (segs (oat O i) = [] <-> segs (oat O' i) = []) /\ ~ In (TDestroy i) tr) \/
  (segs (oat O i) <> [] /\ chain y' i = None /\ segs (oat O' i) = [] /\ exists t1 r t2, tr = t1 ++ TDestroy i :: TCall 0 (OFree (cpool (kg k))) r [] :: t2 /\ idle i t1 /\ ~ In (TDestroy i) t2).
Proof.
  intros R Hk Ni Kd L. induction L as [|tr y1 O1 fuel c [er rp] y2 L IH V E].
  - left. exists k. split; [exact Hk|]. split; [reflexivity|]. split; [exact Kd|]. split; [tauto|intros []].
  - pose proof (sreach_sinv _ _ _ (later_sreach _ _ _ _ _ _ R L)) as S1. pose proof (pexec_done _ _ _ _ _ _ _ _ S1 V E) as D. set (O2 := obs_after O1 (ytr y2)) in *.
    destruct IH as [(k1 & A1 & A2 & A3 & A4 & A5)|(A1 & A2 & A3 & t1 & r & t2 & A4 & A5 & A6)].
    + assert (DY : dying y1 c i k1) by (left; exact A3).
      destruct (dn_live _ _ _ _ _ _ _ D i k1 A1) as [(k2 & B1 & B2 & B3 & B4 & B5)|(B1 & _ & B3 & B4 & t1 & r & t2 & B5 & B6 & B7)].
      * left. exists k2. split; [exact B1|]. split; [congruence|]. split; [apply B3; exact DY|]. split; [rewrite A4; exact (B4 DY Ni)|]. intros J. apply in_app_iff in J as [J|J]; [exact (B5 J)|exact (A5 J)].
      * right. split; [rewrite A4; exact B3|]. split; [exact B4|]. split; [rewrite (c_dead _ _ _ (sinv_cor _ _ _ (dn_inv _ _ _ _ _ _ _ D)) i B4); reflexivity|].
        exists t1, r, (t2 ++ tr). rewrite B5, A2, <- app_assoc. split; [reflexivity|]. split; [exact B6|]. intros J. apply in_app_iff in J as [J|J]; [exact (B7 J)|exact (A5 J)].
    + right. split; [exact A1|]. destruct (dn_dead _ _ _ _ _ _ _ D i) as (K1 & K2); [pose proof (later_len _ _ _ _ _ _ R L); pose proof (chain_lt _ _ _ Hk); lia|exact A2|].
      split; [exact K1|]. split; [rewrite (c_dead _ _ _ (sinv_cor _ _ _ (dn_inv _ _ _ _ _ _ _ D)) i K1); reflexivity|]. exists (ytr y2 ++ t1), r, t2. rewrite A4, app_assoc. split; [reflexivity|]. split; [apply idle_app; assumption|exact A6].
Qed.
Lemma marked_once e y O tr y' O' i k : sreach e y O -> chain y i = Some k -> i <> 0%nat -> kdes k = true -> segs (oat O i) <> [] -> later e y O tr y' O' ->
  (chain y' i = None <-> segs (oat O' i) = []) /\ (In (TDestroy i) tr <-> segs (oat O' i) = []) /\ (forall t, ytls y' t <> Some i) /\
  (segs (oat O' i) = [] -> exists t1 r t2, tr = t1 ++ TDestroy i :: TCall 0 (OFree (cpool (kg k))) r [] :: t2 /\ idle i t1 /\ ~ In (TDestroy i) t2).
Proof.
  intros R Hk Ni Kd HS L. assert (TT : forall t, ytls y' t <> Some i).
  { intros t J. destruct (c_tls _ _ _ (sinv_cor _ _ _ (sreach_sinv _ _ _ (later_sreach _ _ _ _ _ _ R L))) t i J) as (k' & J1 & J2). specialize (J2 Ni).
    destruct (later_mark _ _ _ _ _ _ _ _ R Hk Ni Kd L) as [(k1 & A1 & _ & A3 & _)|(_ & A2 & _)]; congruence. }
  destruct (later_mark _ _ _ _ _ _ _ _ R Hk Ni Kd L) as [(k1 & A1 & A2 & A3 & A4 & A5)|(A1 & A2 & A3 & A4)].
  - split; [split; [congruence|intros J; exfalso; apply HS; apply A4; exact J]|]. split; [split; [contradiction|intros J; exfalso; apply HS; apply A4; exact J]|]. split; [exact TT|]. intros J. exfalso. apply HS. apply A4. exact J.
  - split; [tauto|]. split; [split; [intros _; exact A3|]|split; [exact TT|intros _; exact A4]]. intros _. destruct A4 as (t1 & r & t2 & -> & _). apply in_or_app. right. left. reflexivity.
Qed.
Lemma empty_never e y O tr y' O' i k : sreach e y O -> chain y i = Some k -> i <> 0%nat -> kdes k = true -> segs (oat O i) = [] -> later e y O tr y' O' ->
  (exists k', chain y' i = Some k' /\ kdes k' = true /\ segs (oat O' i) = []) /\ ~ In (TDestroy i) tr.
Proof.
  intros R Hk Ni Kd HS L. destruct (later_mark _ _ _ _ _ _ _ _ R Hk Ni Kd L) as [(k1 & A1 & A2 & A3 & A4 & A5)|(A1 & _)]; [|contradiction].
  split; [exists k1; split; [exact A1|]; split; [exact A3|apply A4; exact HS]|exact A5].
Qed.

(** ** realloc *)
Lemma realloc_public e y O t p n os fuel er r y' i m d u : sreach e y O -> pvalid e y O (PRealloc t p n os) -> holds y O i (mkBlk p m d) -> d <= 1 -> size_of y i p u -> n <> 0 ->
  pexec fuel e (PRealloc t p n os) y = Ok (er, Some r, y') -> r <> 0 ->
  (exists j d', holds y' (obs_after O (ytr y')) j (mkBlk r n d')) /\ forall x, 0 <= x < Z.min u n -> ymem y' (r + x) = ymem y (p + x).
Proof.
  intros R (V1 & V2 & _ & V4) H Hd U Nn E Nr. pose proof (sreach_sinv _ _ _ R) as S. unfold pexec in E. apply ptr_inv in E as (r0 & E & _ & ER). injection ER as <-.
  assert (E1 : one n = n) by (unfold one; destruct (Z.eqb_spec n 0); [contradiction|reflexivity]). rewrite E1 in V4. assert (Hn : 0 < n) by (destruct V4 as (K & _); lia).
  destruct (runs_any _ _ _ _ (runs_realloc e (yset_tr y []) O os t p n i m d (sinv_start _ _ _ S) V1 V2 H Hd Hn (ask_tr _ _ _ _ _ V4)) E) as (O' & tr & M).
  destruct (mv_act _ _ _ _ _ _ _ _ _ _ _ M) as (l & AC & _). pose proof (a_tr _ _ _ _ _ _ _ _ AC) as ET. cbn [yset_tr ytr] in ET. rewrite app_nil_r in ET.
  rewrite ET, <- (a_obs _ _ _ _ _ _ _ _ AC). split; [exact (mv_held _ _ _ _ _ _ _ _ _ _ _ M Nr)|]. intros x Hx. exact (mv_data _ _ _ _ _ _ _ _ _ _ _ M Nr u x U Hx).
Qed.
