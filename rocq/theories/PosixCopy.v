(** calloc, realloc and the exit of a thread. *)
From Verif Require Import Word Res Mem SizeClassModel ChainModel Wp ChainInv ChainSpec ChainStep ChainRefill ChainEv ChainProps ChainCap ChainSrc ChainPut ChainMore ChainCore ChainFuel ChainTrace ChainWalk
  RegionModel RegionSpec RegionProofs LightModel LightSpec LightProofs PosixModel PosixSpec PosixChain PosixInv PosixSrc PosixLocal PosixMid PosixCall PosixRun PosixEff PosixFun PosixPub PosixNew PosixApi.
From Coq Require Import ZArith List Bool Lia.
Import ListNotations.
Open Scope Z_scope.

Lemma act_inv e y O y' O' T N tr : Act e y O y' O' T N tr -> SInv e y' O'.
Proof. intros A. exact (f_inv _ _ _ _ _ _ _ (a_eff _ _ _ _ _ _ _ _ A)). Qed.
Lemma act_sub e y O y' O' (T T' : Z -> Prop) (N N' : nat -> blk -> Prop) tr : Act e y O y' O' T N tr -> (forall p, T' p -> T p) ->
  (forall j b, holds y O j b -> T (bp b) -> T' (bp b)) -> (forall j b, holds y' O' j b -> N j b -> N' j b) -> Act e y O y' O' T' N' tr.
Proof. intros [A1 A2 A3 A4] H1 H2 H3. constructor; [exact (eff_sub _ _ _ _ _ _ _ _ _ A1 H1 H2 H3)|exact A2|exact A3|exact A4]. Qed.
Lemma act_trans e y O y1 O1 y2 O2 T1 N1 t1 T2 N2 t2 : Act e y O y1 O1 T1 N1 t1 -> Act e y1 O1 y2 O2 T2 N2 t2 ->
  Act e y O y2 O2 (fun p => T1 p \/ T2 p) (fun j b => (N1 j b /\ ~ T2 (bp b)) \/ N2 j b) (t2 ++ t1).
Proof. intros A B. apply (act_join _ _ _ _ _ _ _ _ _ _ _ _ _ _ _ A B). exact (eff_trans _ _ _ _ _ _ _ _ _ _ _ (a_eff _ _ _ _ _ _ _ _ A) (a_eff _ _ _ _ _ _ _ _ B)). Qed.

(** ** memset and memcpy *)
Lemma held_acc e y O i b u a n : SInv e y O -> holds y O i b -> size_of y i (bp b) u -> bp b <= a -> a + n <= bp b + u -> accb (yrng y) a n = true.
Proof.
  intros S ((k & Hk) & Hl & _) (k' & Hk' & HU) H1 H2. rewrite Hk in Hk'. injection Hk' as <-. pose proof (c_reach _ _ _ (sinv_cor _ _ _ S) i k Hk) as R.
  destruct (blocks_inside _ _ _ R b (in_or_app _ _ _ (or_introl Hl))) as (u1 & x & z & I1 & I2 & I3 & I4 & I5 & I6). pose proof (usable_eq _ _ _ _ HU I1). subst u1.
  destruct (reach_rng _ _ _ R) as (RG & _). apply (accb_intro _ x z); [|lia|lia]. unfold yrng. apply in_flat_map. exists (Some k). split; [|apply (RG (x, z)); right; exact I4].
  unfold chain in Hk. rewrite <- Hk. apply nth_In. exact (chain_lt _ _ _ Hk).
Qed.
Lemma memset_held e y O i b u n : SInv e y O -> holds y O i b -> size_of y i (bp b) u -> 0 <= n <= u ->
  exists y', p_memset (bp b) n y = Ok y' /\ Act e y O y' O (atT (bp b)) (fun j b' => j = i /\ b' = b) [] /\ holds y' O i b /\ ytls y' = ytls y /\
    forall x, bp b <= x < bp b + n -> ymem y' x = 0.
Proof.
  intros S H U Hn. unfold p_memset. destruct (Z.eqb_spec n 0) as [->|Nn].
  - exists y. split; [reflexivity|]. split; [|split; [exact H|split; [reflexivity|intros x Hx; lia]]].
    pose proof (act_refl e y O S) as [[E1 E2 E3 E4] A2 A3 A4]. constructor; [|exact A2|exact A3|exact A4]. constructor; [exact E1|exact E2|intros j b' u' K1 _ K2; exact (E3 j b' u' K1 (fun x => x) K2)|].
    intros j b' K. destruct (Z.eq_dec (bp b') (bp b)) as [K1|K1]; [right|left; split; [exact K|exact K1]]. destruct (held_unique _ _ _ _ _ _ _ S K H K1) as (-> & ->). auto.
  - rewrite (held_acc _ _ _ _ _ _ _ _ S H U) by lia. eexists. split; [reflexivity|].
    destruct (act_store e y O (zero (ymem y) (bp b) n) i b u S H U) as (A & H1 & _).
    { intros x Hx. unfold zero. destruct (Z.leb_spec (bp b) x), (Z.ltb_spec x (bp b + n)); cbn [andb]; try reflexivity. lia. }
    split; [exact A|]. split; [exact H1|]. split; [reflexivity|]. intros x Hx. cbn [yset_mem ymem]. unfold zero. destruct (Z.leb_spec (bp b) x), (Z.ltb_spec x (bp b + n)); cbn [andb]; try reflexivity; lia.
Qed.
Lemma memcpy_held e y O i b u j b' u' n : SInv e y O -> holds y O i b -> size_of y i (bp b) u -> holds y O j b' -> size_of y j (bp b') u' -> bp b <> bp b' -> 0 <= n -> n <= u -> n <= u' ->
  exists y', p_memcpy (bp b) (bp b') n y = Ok y' /\ Act e y O y' O (atT (bp b)) (fun j0 b0 => j0 = i /\ b0 = b) [] /\ holds y' O i b /\ ytls y' = ytls y /\
    forall x, 0 <= x < n -> ymem y' (bp b + x) = ymem y (bp b' + x).
Proof.
  intros S H U H' U' NE Hn Hu Hu'. unfold p_memcpy. destruct (Z.eqb_spec n 0) as [->|Nn].
  - destruct (memset_held e y O i b u 0 S H U) as (y' & E & K1 & K2 & K3 & _); [lia|]. exists y'. split; [exact E|]. split; [exact K1|]. split; [exact K2|]. split; [exact K3|]. intros x Hx. lia.
  - rewrite (held_acc _ _ _ _ _ _ _ _ S H U), (held_acc _ _ _ _ _ _ _ _ S H' U') by lia. cbn [andb].
    pose proof (held_apart e y O i j b b' u u' S H H' U U' ltac:(congruence)) as A. unfold ChainSpec.apart in A. cbn [fst snd] in A.
    replace ((bp b + n <=? bp b') || (bp b' + n <=? bp b)) with true by (destruct (Z.leb_spec (bp b + n) (bp b')), (Z.leb_spec (bp b' + n) (bp b)); cbn [orb]; try reflexivity; lia).
    eexists. split; [reflexivity|]. destruct (act_store e y O (copy (ymem y) (bp b) (bp b') n) i b u S H U) as (AA & H1 & _).
    { intros x Hx. unfold copy. destruct (Z.leb_spec (bp b) x), (Z.ltb_spec x (bp b + n)); cbn [andb]; try reflexivity. lia. }
    split; [exact AA|]. split; [exact H1|]. split; [reflexivity|]. intros x Hx. cbn [yset_mem ymem]. unfold copy.
    destruct (Z.leb_spec (bp b) (bp b + x)), (Z.ltb_spec (bp b + x) (bp b + n)); cbn [andb]; try lia. f_equal. lia.
Qed.

(** ** sctk_calloc *)
Lemma alloc_then e y O t d n r y1 O1 i u y2 O2 : SInv e y O -> Alloced e y O t d n r y1 O1 i u -> r <> 0 ->
  Act e y1 O1 y2 O2 (atT r) (fun j b => j = i /\ b = mkBlk r n d) [] ->
  Act e y O y2 O2 noT (fun j b => j = i /\ r <> 0 /\ b = mkBlk r n d) u.
Proof.
  intros S A Hr B. apply (act_sub _ _ _ _ _ _ _ _ _ _ (act_trans _ _ _ _ _ _ _ _ _ _ _ _ _ (al_act _ _ _ _ _ _ _ _ _ _ _ A) B)).
  - intros p [].
  - intros j b H [[]|K]. exact (al_fresh _ _ _ _ _ _ _ _ _ _ _ A Hr j b H K).
  - intros j b H [(K & _)|(-> & ->)]; [exact K|auto].
Qed.
Lemma runs_calloc e y O os t a b : SInv e y O -> thread_ok e y O t -> 0 <= a -> 0 <= b -> ytls y t <> Some 0%nat ->
  ask_ok e y (ehook e (one (w64 (a * b)))) (one (w64 (a * b))) os ->
  Runs (fun f => p_calloc f e os t a b y) (fun '(r, y') => exists O' i u, Alloced e y O t (ehook e (one (w64 (a * b)))) (one (w64 (a * b))) r y' O' i u /\ i <> 0%nat /\
    forall x, r <= x < r + w64 (a * b) -> ymem y' x = 0).
Proof.
  intros S T Ha Hb HT HA. set (z := w64 (a * b)) in *. assert (Hz : 0 <= z) by (unfold z, w64; apply Z.mod_pos_bound; rewrite W64_val; lia).
  pose proof (one_pos z Hz) as Hz1. unfold p_calloc. fold z. eapply runs_bind; [exact (runs_alloc e y O os t (ehook e) z S T Hz1 HA)|]. intros (r & y1) (O1 & i & u & A).
  assert (Ni : i <> 0%nat).
  { destruct (al_tr _ _ _ _ _ _ _ _ _ _ _ A) as (u0 & r0 & e0 & gr & ev & [(K & _)|(_ & _ & K & _)] & _); [intros ->; contradiction|exact K]. }
  pose proof (al_null _ _ _ _ _ _ _ _ _ _ _ A Ni) as Hr. pose proof (al_held _ _ _ _ _ _ _ _ _ _ _ A Hr) as HH. pose proof (act_inv _ _ _ _ _ _ _ _ (al_act _ _ _ _ _ _ _ _ _ _ _ A)) as S1.
  destruct (held_size _ _ _ _ _ S1 HH) as (uu & U & U1 & _). cbn [bp bn] in *.
  destruct (memset_held e y1 O1 i _ uu z S1 HH U) as (y2 & E & B & H2 & TL & Z0). { cbn [bn]. unfold one in U1. destruct (Z.eqb_spec z 0); lia. }
  cbn [bp] in E. rewrite E. cbn [rbind]. eapply runs_ok; [intros f; reflexivity|]. exists O1, i, u. split; [|split; [exact Ni|exact Z0]]. constructor.
  - exact (alloc_then _ _ _ _ _ _ _ _ _ _ _ _ _ S A Hr B).
  - intros _. exact H2.
  - exact (al_fresh _ _ _ _ _ _ _ _ _ _ _ A).
  - exact (al_null _ _ _ _ _ _ _ _ _ _ _ A).
  - intros t'. rewrite TL. exact (al_tls _ _ _ _ _ _ _ _ _ _ _ A t').
  - exact (al_tr _ _ _ _ _ _ _ _ _ _ _ A).
  - intros K. contradiction.
Qed.

(** ** sctk_realloc *)
Record Moved (e : env) (y : sys) (O : list obs) (t p n r : Z) (i : nat) (y' : sys) (O' : list obs) (tr : list titem) : Prop := {
  mv_act : exists l, Act e y O y' O' (atT p) (fun j b => (j = i \/ j = l) /\ r <> 0 /\ exists d, b = mkBlk r n d) tr /\ (forall t', ytls y' t' = zupd (ytls y) t (Some l) t') /\
    (r = 0 -> i = 0%nat \/ l = 0%nat) /\ (l = 0%nat -> ytls y t = Some 0%nat);
  mv_held : r <> 0 -> exists j d, holds y' O' j (mkBlk r n d);
  mv_fresh : r <> 0 -> r <> p -> forall j b, holds y O j b -> bp b <> r;
  mv_data : r <> 0 -> forall u x, size_of y i p u -> 0 <= x < Z.min u n -> ymem y' (r + x) = ymem y (p + x) }.

Lemma alloc_size e y O t d n r y' O' i u : Alloced e y O t d n r y' O' i u -> r <> 0 -> exists uu, size_of y' i r uu /\ n <= uu.
Proof.
  intros A Hr. destruct (held_size _ _ _ _ _ (act_inv _ _ _ _ _ _ _ _ (al_act _ _ _ _ _ _ _ _ _ _ _ A)) (al_held _ _ _ _ _ _ _ _ _ _ _ A Hr)) as (uu & U & U1 & _). exists uu. auto.
Qed.
Lemma size_eq y i p u u' : size_of y i p u -> size_of y i p u' -> u = u'.
Proof. intros (k & H1 & H2) (k' & H1' & H2'). rewrite H1 in H1'. injection H1' as <-. exact (usable_eq _ _ _ _ H2 H2'). Qed.

Lemma runs_inter e y O os t i p n m d l : SInv e y O -> holds y O i (mkBlk p m d) -> 0 < n -> ytls y t = Some l -> ask_ok e y (ehook e n) n os ->
  Runs (fun f => inter_chain f e os t i p n y) (fun '(r, y') => exists O' tr, Moved e y O t p n r i y' O' tr).
Proof.
  intros S H Hn HT HA. assert (E1 : one n = n) by (unfold one; destruct (Z.eqb_spec n 0); lia). unfold inter_chain. rewrite <- E1 in HA.
  eapply runs_bind; [apply (runs_alloc e y O os t (ehook e) n S); [intros K; congruence|lia|exact HA]|]. rewrite E1. intros (r & y1) (O1 & l1 & u & A).
  assert (EL : l1 = l). { destruct (al_tr _ _ _ _ _ _ _ _ _ _ _ A) as (u0 & r0 & e0 & gr & ev & [(K & _)|(K & _)] & _); congruence. } subst l1.
  pose proof (act_inv _ _ _ _ _ _ _ _ (al_act _ _ _ _ _ _ _ _ _ _ _ A)) as S1. destruct (held_size _ _ _ _ _ S H) as (w & W & _).
  destruct (f_keep _ _ _ _ _ _ _ (a_eff _ _ _ _ _ _ _ _ (al_act _ _ _ _ _ _ _ _ _ _ _ A)) _ _ _ H (fun K => K) W) as (H1 & W1 & B1). cbn [bp] in *.
  assert (T1 : ytls y1 t = Some l). { rewrite (al_tls _ _ _ _ _ _ _ _ _ _ _ A). unfold zupd. rewrite Z.eqb_refl. reflexivity. }
  assert (STEP : exists y2, (if r =? 0 then Ok y1 else rbind (p_size i p y1) (fun u0 => p_memcpy r p (if n <? u0 then n else u0) y1)) = Ok y2 /\
     Act e y O y2 O1 noT (fun j b => j = l /\ r <> 0 /\ b = mkBlk r n (ehook e n)) u /\ (forall t', ytls y2 t' = ytls y1 t') /\
     (r <> 0 -> holds y2 O1 l (mkBlk r n (ehook e n)) /\ forall x, 0 <= x < Z.min w n -> ymem y2 (r + x) = ymem y (p + x))).
  { destruct (Z.eqb_spec r 0) as [Er|Nr].
    - exists y1. split; [reflexivity|]. split; [exact (al_act _ _ _ _ _ _ _ _ _ _ _ A)|]. split; [reflexivity|]. intros K. contradiction.
    - pose proof (al_held _ _ _ _ _ _ _ _ _ _ _ A Nr) as HR. destruct (alloc_size _ _ _ _ _ _ _ _ _ _ _ A Nr) as (v & V1 & V2).
      assert (PS : p_size i p y1 = Ok w). { destruct W1 as (k1 & K1 & K2). unfold p_size. rewrite K1. unfold usable in K2. rewrite K2. reflexivity. } rewrite PS. cbn [rbind].
      destruct (held_size _ _ _ _ _ S1 H1) as (w' & W' & W2 & W3 & _). pose proof (size_eq _ _ _ _ _ W1 W') as <-. cbn [bn bp] in *.
      assert (NE : r <> p) by (intros ->; exact (al_fresh _ _ _ _ _ _ _ _ _ _ _ A Nr _ _ H eq_refl)).
      destruct (memcpy_held e y1 O1 l _ v i _ w (if n <? w then n else w) S1 HR V1 H1 W1 NE) as (y2 & E2 & A2 & H2 & T2 & D2); [destruct (Z.ltb_spec n w); lia|destruct (Z.ltb_spec n w); lia|destruct (Z.ltb_spec n w); lia|].
      cbn [bp] in *. exists y2. split; [exact E2|]. split; [exact (alloc_then _ _ _ _ _ _ _ _ _ _ _ _ _ S A Nr A2)|]. split; [rewrite T2; reflexivity|]. intros _. split; [exact H2|].
      intros x Hx. rewrite D2 by (destruct (Z.ltb_spec n w); lia). apply B1. lia. }
  destruct STEP as (y2 & E2 & A2 & T2 & D2). eapply runs_bind; [eapply runs_ok; [intros f; exact E2|exact (eq_refl y2)]|]. intros ? <-.
  pose proof (act_inv _ _ _ _ _ _ _ _ A2) as S2. pose proof (act_holds _ _ _ _ _ _ _ _ _ _ S A2 H (fun K => K)) as H2.
  eapply runs_bind; [apply (runs_free e y2 O1 t p i m d S2); [intros K; rewrite T2 in K; congruence|exact H2]|]. intros (r1 & y3) (O3 & tr & F).
  eapply runs_ok; [intros f; reflexivity|]. pose proof (fr_act _ _ _ _ _ _ _ _ _ F) as A3. exists O3, (tr ++ u).
  assert (KEEP : r <> 0 -> holds y3 O3 l (mkBlk r n (ehook e n)) /\ forall x, 0 <= x < Z.min w n -> ymem y3 (r + x) = ymem y (p + x)).
  { intros Nr. destruct (D2 Nr) as (HR & DR). assert (NE : r <> p) by (intros ->; exact (al_fresh _ _ _ _ _ _ _ _ _ _ _ A Nr _ _ H eq_refl)).
    destruct (held_size _ _ _ _ _ S2 HR) as (v & V & V2 & _). destruct (f_keep _ _ _ _ _ _ _ (a_eff _ _ _ _ _ _ _ _ A3) _ _ _ HR NE V) as (K1 & _ & K3). split; [exact K1|].
    intros x Hx. rewrite <- DR by exact Hx. apply K3. cbn [bp bn] in *. lia. }
  constructor.
  - exists l. split; [|split; [|split; [|congruence]]].
    + apply (act_sub _ _ _ _ _ _ _ _ _ _ (act_trans _ _ _ _ _ _ _ _ _ _ _ _ _ A2 A3)); [intros q K; right; exact K|intros j b _ [[]|K]; exact K|].
      intros j b _ [((-> & K1 & ->) & _)|[]]. split; [right; reflexivity|]. split; [exact K1|eauto].
    + destruct (fr_tls _ _ _ _ _ _ _ _ _ F) as (l3 & u3 & EN & TT & _). intros t'. rewrite TT. destruct EN as [(K & _)|(K & _)].
      * assert (l3 = l) by (rewrite T2 in K; congruence). subst l3. unfold zupd. destruct (t' =? t) eqn:Et; [reflexivity|]. rewrite T2, (al_tls _ _ _ _ _ _ _ _ _ _ _ A). unfold zupd. rewrite Et. reflexivity.
      * rewrite T2 in K. congruence.
    + intros Er. right. destruct (Nat.eq_dec l 0) as [K|K]; [exact K|]. exfalso. exact (al_null _ _ _ _ _ _ _ _ _ _ _ A K Er).
  - intros Nr. exists l, (ehook e n). exact (proj1 (KEEP Nr)).
  - intros Nr _. exact (al_fresh _ _ _ _ _ _ _ _ _ _ _ A Nr).
  - intros Nr v x V Hx. rewrite (size_eq _ _ _ _ _ V W) in Hx. exact (proj2 (KEEP Nr) x Hx).
Qed.
