(** One public call on the whole allocator, and histories. *)
From Verif Require Import Word Res Mem SizeClassModel ChainModel Wp ChainInv ChainSpec ChainStep ChainRefill ChainEv ChainProps ChainCap ChainSrc ChainPut ChainMore ChainCore ChainFuel ChainTrace ChainWalk
  RegionModel RegionSpec RegionProofs LightModel LightSpec LightProofs PosixModel PosixSpec PosixChain PosixInv PosixSrc PosixLocal PosixMid PosixCall PosixRun PosixEff PosixFun PosixPub PosixNew PosixApi PosixCopy
  PosixRealloc PosixStart.
From Coq Require Import ZArith List Bool Lia.
Import ListNotations.
Open Scope Z_scope.

Record Done (e : env) (y : sys) (O : list obs) (c : pop) (rp : option Z) (y' : sys) (O' : list obs) : Prop := {
  dn_inv : SInv e y' O';
  dn_obs : O' = obs_after O (ytr y');
  dn_keep : forall j b u, holds y O j b -> ~ frees c (bp b) -> size_of y j (bp b) u ->
    holds y' O' j b /\ size_of y' j (bp b) u /\ forall x, bp b <= x < bp b + u -> ~ writes c x -> ymem y' x = ymem y x;
  dn_new : forall j b, holds y' O' j b -> (holds y O j b /\ ~ frees c (bp b)) \/ (rp = Some (bp b) /\ gives c = Some (bn b));
  dn_held : forall r, rp = Some r -> r <> 0 -> (forall j b, holds y O j b -> ~ frees c (bp b) -> bp b <> r) /\
    exists j b, holds y' O' j b /\ bp b = r /\ gives c = Some (bn b);
  dn_none : gives c = None -> rp = None \/ rp = Some 0;
  dn_null : rp = Some 0 -> gives c <> None -> (exists t, by_thread c = Some t /\ ytls y t = Some 0%nat) \/ (exists b, holds y O 0 b /\ frees c (bp b)) \/
    (exists t d n os, c = PMemalign t d n os /\ is_pow2 d = false);
  dn_tls : forall t, by_thread c <> Some t -> ytls y' t = ytls y t;
  dn_len : (length (ych y) <= length (ych y'))%nat;
  dn_dead : forall i, (i < length (ych y))%nat -> chain y i = None -> chain y' i = None /\ idle i (ytr y');
  dn_live : forall i k, chain y i = Some k ->
    (exists k', chain y' i = Some k' /\ kg k' = kg k /\ (kdes k' = true <-> dying y c i k) /\
       (dying y c i k -> i <> 0%nat -> (segs (oat O i) = [] <-> segs (oat O' i) = [])) /\ ~ In (TDestroy i) (ytr y')) \/
    (dying y c i k /\ i <> 0%nat /\ segs (oat O i) <> [] /\ chain y' i = None /\
       exists t1 r t2, ytr y' = t1 ++ TDestroy i :: TCall 0 (OFree (cpool (kg k))) r [] :: t2 /\ idle i t1 /\ ~ In (TDestroy i) t2) }.

(** Calls that do not mark a chain. *)
Definition no_exit (c : pop) : Prop := match c with PExit _ => False | _ => True end.
Lemma dying_no y c i k : no_exit c -> (dying y c i k <-> kdes k = true).
Proof. intros N. split; [|left; assumption]. intros [K|(t & -> & _)]; [exact K|destruct N]. Qed.

Lemma done_act e y O c rp y' O' T N tr : SInv e y O -> Act e (yset_tr y []) O y' O' T N tr -> no_exit c -> (forall x, ~ writes c x) ->
  (forall j b, holds y O j b -> (T (bp b) <-> frees c (bp b))) ->
  (forall j b, holds y' O' j b -> N j b -> rp = Some (bp b) /\ gives c = Some (bn b)) ->
  (forall r, rp = Some r -> r <> 0 -> (forall j b, holds y O j b -> ~ frees c (bp b) -> bp b <> r) /\ exists j b, holds y' O' j b /\ bp b = r /\ gives c = Some (bn b)) ->
  (gives c = None -> rp = None \/ rp = Some 0) ->
  (rp = Some 0 -> gives c <> None -> (exists t, by_thread c = Some t /\ ytls y t = Some 0%nat) \/ (exists b, holds y O 0 b /\ frees c (bp b)) \/
    (exists t d n os, c = PMemalign t d n os /\ is_pow2 d = false)) ->
  (forall t, by_thread c <> Some t -> ytls y' t = ytls y t) -> Done e y O c rp y' O'.
Proof.
  intros S A NX NW HT HN HH H0 HU HS. destruct A as [[F1 F2 F3 F4] A1 A2 [L1 L2 L3]]. cbn [yset_tr ytr] in A1. rewrite app_nil_r in A1. constructor.
  - exact F1.
  - rewrite A1. exact A2.
  - intros j b u H NT U. destruct (F3 j b u H) as (K1 & K2 & K3); [rewrite (HT j b H); exact NT|exact U|]. split; [exact K1|]. split; [exact K2|]. intros x Hx _. exact (K3 x Hx).
  - intros j b H. destruct (F4 j b H) as [(K1 & K2)|K]; [left|right; exact (HN j b H K)]. split; [exact K1|]. rewrite <- (HT j b K1). exact K2.
  - exact HH.
  - exact H0.
  - exact HU.
  - exact HS.
  - exact L1.
  - rewrite A1. exact L2.
  - intros i k Hk. rewrite A1. pose proof (dying_no y c i k NX) as DN. destruct (L3 i k Hk) as [(k' & K1 & K2 & _ & K4 & K5 & K6)|K]; [left|right; rewrite DN; exact K].
    exists k'. split; [exact K1|]. split; [exact K2|]. split; [rewrite K4, DN; reflexivity|]. split; [rewrite DN; exact K5|exact K6].
Qed.

Lemma sinv_start e y O : SInv e y O -> SInv e (yset_tr y []) O.
Proof. intros S. apply (sinv_same e y _ O S); reflexivity. Qed.

Lemma entry_egg e y t i u0 : entry e y t i u0 -> i = 0%nat -> ytls y t = Some 0%nat.
Proof. intros [(K & _)|(_ & _ & N & _)] E; [subst i; exact K|contradiction]. Qed.

Lemma done_alloc e y O c t d n r y' O' i u : SInv e y O -> Alloced e (yset_tr y []) O t d n r y' O' i u -> gives c = Some n -> by_thread c = Some t ->
  no_exit c -> (forall x, ~ writes c x) -> (forall j b, holds y O j b -> ~ frees c (bp b)) -> Done e y O c (Some r) y' O'.
Proof.
  intros S A HG HB NX NW NF. eapply done_act; [exact S|exact (al_act _ _ _ _ _ _ _ _ _ _ _ A)|exact NX|exact NW| | | | | |].
  - intros j b H. split; [intros []|intros K; exact (NF j b H K)].
  - intros j b _ (_ & _ & ->). auto.
  - intros r0 Hr Nr. injection Hr as <-. split; [intros j b H _; exact (al_fresh _ _ _ _ _ _ _ _ _ _ _ A Nr j b H)|]. exists i, (mkBlk r n d). split; [exact (al_held _ _ _ _ _ _ _ _ _ _ _ A Nr)|]. auto.
  - congruence.
  - intros Hr _. injection Hr as ->. left. exists t. split; [exact HB|]. destruct (al_tr _ _ _ _ _ _ _ _ _ _ _ A) as (u0 & r0 & e0 & gr & ev & EN & _). apply (entry_egg _ _ _ _ _ EN).
    destruct (Nat.eq_dec i 0) as [K|K]; [exact K|]. exfalso. exact (al_null _ _ _ _ _ _ _ _ _ _ _ A K eq_refl).
  - intros t' Ht. rewrite (al_tls _ _ _ _ _ _ _ _ _ _ _ A). unfold zupd. destruct (Z.eqb_spec t' t) as [->|_]; [contradiction|reflexivity].
Qed.

Lemma done_quiet e y O c rp y' O' tr t i : SInv e y O -> Act e (yset_tr y []) O y' O' noT noN tr -> gives c = None -> by_thread c = Some t ->
  rp = None \/ rp = Some 0 -> no_exit c -> (forall x, ~ writes c x) -> (forall j b, holds y O j b -> ~ frees c (bp b)) ->
  (forall t', ytls y' t' = zupd (ytls y) t (Some i) t') -> Done e y O c rp y' O'.
Proof.
  intros S A HG HB HR NX NW NF HT. eapply done_act; [exact S|exact A|exact NX|exact NW| | | | | |].
  - intros j b H. split; [intros []|intros K; exact (NF j b H K)].
  - intros j b _ [].
  - intros r -> Nr. destruct HR as [HR|HR]; [discriminate|]. injection HR as ->. contradiction.
  - auto.
  - intros _ K. contradiction.
  - intros t' Ht. rewrite HT. unfold zupd. destruct (Z.eqb_spec t' t) as [->|_]; [contradiction|reflexivity].
Qed.

Lemma done_free e y O c rp t p i y' O' tr : SInv e y O -> Freed e (yset_tr y []) O t p i y' O' tr -> gives c = None -> by_thread c = Some t ->
  rp = None \/ rp = Some 0 -> no_exit c -> (forall x, ~ writes c x) -> (forall q, frees c q <-> q = p) -> Done e y O c rp y' O'.
Proof.
  intros S F HG HB HR NX NW NF. eapply done_act; [exact S|exact (fr_act _ _ _ _ _ _ _ _ _ F)|exact NX|exact NW| | | | | |].
  - intros j b _. rewrite NF. unfold atT. tauto.
  - intros j b _ [].
  - intros r -> Nr. destruct HR as [HR|HR]; [discriminate|]. injection HR as ->. contradiction.
  - auto.
  - intros _ K. contradiction.
  - destruct (fr_tls _ _ _ _ _ _ _ _ _ F) as (l & u0 & _ & HT & _). intros t' Ht. rewrite HT. unfold zupd. destruct (Z.eqb_spec t' t) as [->|_]; [contradiction|reflexivity].
Qed.

Lemma done_moved e y O t p n os r i m d y' O' tr : SInv e y O -> 0 < n -> holds y O i (mkBlk p m d) -> Moved e (yset_tr y []) O t p n r i y' O' tr ->
  Done e y O (PRealloc t p n os) (Some r) y' O'.
Proof.
  intros S Hn H M. destruct (mv_act _ _ _ _ _ _ _ _ _ _ _ M) as (l & A & HT & HZ & TT).
  assert (HG : gives (PRealloc t p n os) = Some n) by (cbn [gives]; unfold one; destruct (Z.eqb_spec n 0); [lia|]; rewrite andb_false_r; reflexivity).
  eapply done_act; [exact S|exact A|exact Logic.I|intros x K; exact K| | | | | |].
  - intros j b _. cbn [frees]. unfold atT. tauto.
  - intros j b _ (_ & _ & d' & ->). auto.
  - intros r0 Hr Nr. injection Hr as <-. split.
    + intros j b HB NF. cbn [frees] in NF. intros E. destruct (Z.eq_dec r p) as [->|Np]; [exact (NF E)|]. exact (mv_fresh _ _ _ _ _ _ _ _ _ _ _ M Nr Np j b HB E).
    + destruct (mv_held _ _ _ _ _ _ _ _ _ _ _ M Nr) as (j & d' & K). exists j, (mkBlk r n d'). auto.
  - congruence.
  - intros Hr _. injection Hr as ->. destruct (HZ eq_refl) as [->|K]; [right; left; exists (mkBlk p m d); split; [exact H|reflexivity]|left]. exists t. split; [reflexivity|]. exact (TT K).
  - intros t' Ht. rewrite HT. unfold zupd. cbn [by_thread] in Ht. destruct (Z.eqb_spec t' t) as [->|_]; [contradiction|reflexivity].
Qed.

Lemma done_use e y O t i k : SInv e y O -> chain y i = Some k -> i = 0%nat \/ kdes k = false /\ (forall t', t' <> t -> ytls y t' <> Some i) ->
  Done e y O (PUse t i) None (yset_tls (yset_tr y []) t (Some i)) O.
Proof.
  intros S Hk HI. pose proof (sinv_start _ _ _ S) as S0. pose proof (sinv_tls e _ O t i k S0 Hk HI) as S1.
  apply (done_quiet e y O (PUse t i) None _ O [] t i S); [|reflexivity|reflexivity|left; reflexivity|exact Logic.I|intros x K; exact K|intros j b _ K; exact K|reflexivity].
  constructor; [|reflexivity|reflexivity|exact (life_still (yset_tr y []) O (yset_tls (yset_tr y []) t (Some i)) eq_refl)].
  apply (eff_same e (yset_tr y []) (yset_tls (yset_tr y []) t (Some i)) O S0 S1); reflexivity.
Qed.

Lemma done_write e y O x v i b u : SInv e y O -> holds y O i b -> size_of y i (bp b) u -> bp b <= x < bp b + u ->
  Done e y O (PWrite x v) None (yset_mem (yset_tr y []) (upd (ymem y) x v)) O.
Proof.
  intros S H U Hx. pose proof (sinv_start _ _ _ S) as S0. set (y' := yset_mem (yset_tr y []) (upd (ymem y) x v)).
  destruct (act_store e (yset_tr y []) O (upd (ymem y) x v) i b u S0 H U) as (A & H1 & U1 & _).
  { intros z Hz. cbn [yset_tr ymem]. unfold upd. destruct (Z.eqb_spec z x) as [->|_]; [contradiction|reflexivity]. }
  fold y' in A, H1, U1. destruct A as [[F1 F2 F3 F4] A1 A2 [L1 L2 L3]]. constructor.
  - exact F1.
  - reflexivity.
  - intros j b' u' H' _ U'. assert (M : forall z, bp b' <= z < bp b' + u' -> ~ writes (PWrite x v) z -> ymem y' z = ymem y z).
    { intros z _ K. cbn [writes] in K. unfold y'. cbn [yset_mem ymem]. unfold upd. destruct (Z.eqb_spec z x); [contradiction|reflexivity]. }
    destruct (Z.eq_dec (bp b') (bp b)) as [E|N].
    + destruct (held_unique _ _ _ _ _ _ _ S H' H E) as (-> & ->). rewrite (size_eq _ _ _ _ _ U' U) in *. split; [exact H1|]. split; [exact U1|exact M].
    + destruct (F3 j b' u' H' N U') as (K1 & K2 & _). split; [exact K1|]. split; [exact K2|exact M].
  - intros j b' H'. left. split; [|intros []]. destruct (F4 j b' H') as [(K & _)|(-> & ->)]; [exact K|exact H].
  - intros r K. discriminate.
  - auto.
  - discriminate.
  - reflexivity.
  - exact L1.
  - exact L2.
  - intros j k Hk. pose proof (dying_no y (PWrite x v) j k Logic.I) as DN. destruct (L3 j k Hk) as [(k' & K1 & K2 & _ & K4 & K5 & K6)|K]; [left|right; rewrite DN; exact K].
    exists k'. split; [exact K1|]. split; [exact K2|]. split; [rewrite K4, DN; reflexivity|]. split; [rewrite DN; exact K5|exact K6].
Qed.

Lemma done_exit e y O t i k y' O' u evs r0 w : SInv e y O -> ytls y t = Some i -> chain y i = Some k ->
  Act e (exited (yset_tr y []) t i k) O y' O' noT noN (u ++ [TCall i OPurge r0 evs]) -> (forall t', ytls y' t' = zupd (ytls y) t (Some 0%nat) t') ->
  after i (mkChn (kg k) true true (kst k)) w u -> Done e y O (PExit t) None y' O'.
Proof.
  intros S HT Hk A TT _. pose proof (sinv_start _ _ _ S) as S0. pose proof (exited_ok e _ O t i k S0 HT Hk) as E0. set (y0 := exited (yset_tr y []) t i k) in *.
  assert (CI : chain y0 i = Some (mkChn (kg k) true true (kst k))) by (apply mk_same with (1 := Hk)).
  assert (CJ : forall j, j <> i -> chain y0 j = chain y j) by (intros j Nj; exact (mk_other (yset_tls (yset_tr y []) t (Some 0%nat)) i k j Nj)).
  destruct (eff_seq _ _ _ _ _ _ _ _ _ E0 (a_eff _ _ _ _ _ _ _ _ A)) as [F1 F2 F3 F4]. destruct A as [_ A1 A2 [L1 L2 L3]].
  assert (ET : ytr y' = u ++ [TCall i OPurge r0 evs]). { rewrite A1. rewrite app_nil_r. reflexivity. } rewrite <- ET in *. constructor.
  - exact F1.
  - exact A2.
  - intros j b v H _ V. destruct (F3 j b v H (fun K => K) V) as (K1 & K2 & K3). split; [exact K1|]. split; [exact K2|]. intros x Hx _. exact (K3 x Hx).
  - intros j b H. left. destruct (F4 j b H) as [(K & _)|[]]. split; [exact K|intros []].
  - intros r K. discriminate.
  - auto.
  - discriminate.
  - intros t' Ht. rewrite TT. unfold zupd. cbn [by_thread] in Ht. destruct (Z.eqb_spec t' t) as [->|_]; [contradiction|reflexivity].
  - unfold y0, exited, mark in L1. cbn [put_chain yset_ch ych] in L1. rewrite set_nth_len in L1. exact L1.
  - intros j Hj Hn. apply L2.
    + unfold y0, exited, mark. cbn [put_chain yset_ch ych]. rewrite set_nth_len. exact Hj.
    + destruct (Nat.eq_dec j i) as [E|N]; [subst j; congruence|]. rewrite (CJ j N). exact Hn.
  - intros j kj Hj. destruct (Nat.eq_dec j i) as [E|N].
    + subst j. rewrite Hk in Hj. injection Hj as <-. assert (DY : dying y (PExit t) i k) by (right; exists t; auto).
      destruct (L3 i _ CI) as [(k' & K1 & K2 & _ & K4 & K5 & K6)|(K1 & K2 & K3 & K4 & K5)]; [left; exists k'|right].
      * split; [exact K1|]. split; [exact K2|]. split; [rewrite K4; cbn [kdes]; tauto|]. split; [|exact K6]. intros _. apply K5. reflexivity.
      * split; [exact DY|]. auto.
    + assert (DN : dying y (PExit t) j kj <-> kdes kj = true).
      { split; [|left; assumption]. intros [K|(t' & K & K')]; [exact K|]. injection K as <-. congruence. }
      rewrite <- (CJ j N) in Hj. destruct (L3 j kj Hj) as [(k' & K1 & K2 & _ & K4 & K5 & K6)|K]; [left|right; rewrite DN; exact K].
      exists k'. split; [exact K1|]. split; [exact K2|]. split; [rewrite K4, DN; reflexivity|]. split; [rewrite DN; exact K5|exact K6].
Qed.

Lemma done_exit_none e y O t : SInv e y O -> ytls y t = None -> Done e y O (PExit t) None (yset_tr y []) O.
Proof.
  intros S HT. pose proof (sinv_start _ _ _ S) as S0. constructor.
  - exact S0.
  - reflexivity.
  - intros j b u H _ U. split; [exact H|]. split; [exact U|reflexivity].
  - intros j b H. left. split; [exact H|intros []].
  - discriminate.
  - auto.
  - discriminate.
  - reflexivity.
  - apply Nat.le_refl.
  - intros i _ Hi. split; [exact Hi|intros x []].
  - intros i k Hk. left. exists k. split; [exact Hk|]. split; [reflexivity|]. split; [|split; [tauto|intros []]]. split; [left; assumption|]. intros [K|(t' & K & K')]; [exact K|]. injection K as <-. congruence.
Qed.

Lemma w64_64 z : w64 z = z mod 2 ^ 64.
Proof. reflexivity. Qed.

Lemma ask_pos e y d n os : ask_ok e y d (one n) os -> 1 <= one n.
Proof. intros (K & _). unfold one in *. destruct (Z.eqb_spec n 0); lia. Qed.
Lemma ask_tr e y d n os : ask_ok e y d n os -> ask_ok e (yset_tr y []) d n os.
Proof. intros K. exact K. Qed.

Section Step.
Variables (e : env) (y : sys) (O : list obs).
Hypothesis S : SInv e y O.
Definition Ends (c : pop) (x : Z * option Z * sys) : Prop := let '(_, rp, y') := x in Done e y O c rp y' (obs_after O (ytr y')).
Lemma ends_ptr c (x : nat -> res (Z * sys)) : Runs x (fun '(r, y') => exists O', Done e y O c (Some r) y' O') -> Runs (fun f => ptr (x f)) (Ends c).
Proof.
  intros RX. unfold ptr. eapply runs_bind; [exact RX|]. intros (r & y') (O' & D). eapply runs_ok; [intros f; reflexivity|].
  unfold Ends. rewrite <- (dn_obs _ _ _ _ _ _ _ D). exact D.
Qed.
Lemma ends_unit c (x : nat -> res (Z * sys)) : Runs x (fun '(r, y') => exists O', Done e y O c None y' O') -> Runs (fun f => unit_ (x f)) (Ends c).
Proof.
  intros RX. unfold unit_. eapply runs_bind; [exact RX|]. intros (r & y') (O' & D). eapply runs_ok; [intros f; reflexivity|].
  unfold Ends. rewrite <- (dn_obs _ _ _ _ _ _ _ D). exact D.
Qed.

Lemma ends_alloc c os t dd n : thread_ok e y O t -> ask_ok e y (dd (one n)) (one n) os -> gives c = Some (one n) -> by_thread c = Some t ->
  no_exit c -> (forall x, ~ writes c x) -> (forall j b, holds y O j b -> ~ frees c (bp b)) -> Runs (fun f => ptr (p_alloc f e os t dd n (yset_tr y []))) (Ends c).
Proof.
  intros HT HA G1 G2 G3 G4 G5. apply ends_ptr. eapply runs_mono; [exact (runs_alloc e (yset_tr y []) O os t dd n (sinv_start _ _ _ S) HT (ask_pos _ _ _ _ _ HA) (ask_tr _ _ _ _ _ HA))|].
  intros (r & y') (O' & i & u & A). exists O'. exact (done_alloc _ _ _ c _ _ _ _ _ _ _ _ S A G1 G2 G3 G4 G5).
Qed.

Lemma done_of_free t p c rp : thread_ok e y O t -> p = 0 \/ (exists i n d, holds y O i (mkBlk p n d)) \/ (estrict e = false /\ foreign y O p) ->
  gives c = None -> by_thread c = Some t -> rp = None \/ rp = Some 0 -> no_exit c -> (forall x, ~ writes c x) -> (forall q, frees c q <-> q = p) ->
  Runs (fun f => p_free f e t p (yset_tr y [])) (fun '(_, y') => exists O', Done e y O c rp y' O').
Proof.
  intros HT HP G1 G2 G3 G4 G5 G6. pose proof (sinv_start _ _ _ S) as S0.
  assert (N : p = 0 \/ estrict e = false /\ foreign y O p -> Runs (fun f => p_free f e t p (yset_tr y [])) (fun '(_, y') => exists O', Done e y O c rp y' O')).
  { intros K. eapply runs_mono; [exact (runs_free_none e (yset_tr y []) O t p S0 HT K)|]. intros (r & y') (O' & l & k & u0 & r0 & ev & H). exists O'.
    apply (done_quiet e y O c rp y' O' _ t l S (o_act _ _ _ _ _ _ _ _ _ _ H) G1 G2 G3 G4 G5); [|exact (o_tls _ _ _ _ _ _ _ _ _ _ H)].
    intros j b HB KF. rewrite G6 in KF. destruct (held_size _ _ _ _ _ S HB) as (u & _ & U1 & U2 & U3 & _). destruct K as [K|(_ & _ & K)]; [lia|].
    destruct HB as ((kj & Hk) & HL & _). destruct (blocks_inside _ _ _ (c_reach _ _ _ (sinv_cor _ _ _ S) j kj Hk) b (in_or_app _ _ _ (or_introl HL))) as (v & x & z & I1 & I2 & I3 & I4 & I5 & I6).
    apply (K j kj x z Hk I4). lia. }
  destruct HP as [HP|[(i & n & d & HP)|HP]]; [apply N; left; exact HP| |apply N; right; exact HP].
  eapply runs_mono; [exact (runs_free e (yset_tr y []) O t p i n d S0 HT HP)|]. intros (r & y') (O' & tr & F). exists O'. exact (done_free e y O c rp t p i y' O' tr S F G1 G2 G3 G4 G5 G6).
Qed.

Lemma ends_realloc t p n os : pvalid e y O (PRealloc t p n os) -> Runs (fun f => pexec f e (PRealloc t p n os) y) (Ends (PRealloc t p n os)).
Proof.
  intros (V1 & V2 & V3 & V4). unfold pexec. pose proof (sinv_start _ _ _ S) as S0.
  assert (POS : forall j b, holds y O j b -> 0 < bp b) by (intros j b HB; destruct (held_size _ _ _ _ _ S HB) as (u & _ & _ & _ & U3 & _); exact U3).
  destruct (Z.eqb_spec p 0) as [->|Np].
  { unfold p_realloc. rewrite Z.eqb_refl. apply (ends_alloc (PRealloc t 0 n os) os t (ehook e) n V1 V4); [reflexivity|reflexivity|exact Logic.I|intros x K; exact K|]. intros j b HB K. cbn [frees] in K. specialize (POS j b HB). lia. }
  destruct V3 as [V3|(i & m & d & HP & Hd)]; [contradiction|]. destruct (Z.eqb_spec n 0) as [->|Nn].
  - apply ends_ptr. unfold p_realloc. destruct (Z.eqb_spec p 0) as [K|_]; [contradiction|]. rewrite Z.eqb_refl. eapply runs_bind.
    + apply (done_of_free t p (PRealloc t p 0 os) (Some 0) V1).
      * right. left. eauto.
      * cbn [gives]. destruct (Z.eqb_spec p 0); [contradiction|reflexivity].
      * reflexivity.
      * right. reflexivity.
      * exact Logic.I.
      * intros x K. exact K.
      * intros q. reflexivity.
    + intros (r & y') H. eapply runs_ok; [intros f; reflexivity|exact H].
  - apply ends_ptr. assert (E1 : one n = n) by (unfold one; destruct (Z.eqb_spec n 0); [contradiction|reflexivity]). rewrite E1 in V4. assert (Hn : 0 < n) by (destruct V4 as (K & _); lia).
    eapply runs_mono; [exact (runs_realloc e (yset_tr y []) O os t p n i m d S0 V1 V2 HP Hd Hn (ask_tr _ _ _ _ _ V4))|]. intros (r & y') (O' & tr & M). exists O'.
    exact (done_moved e y O t p n os r i m d y' O' tr S Hn HP M).
Qed.

Theorem runs_pexec c : pvalid e y O c -> Runs (fun f => pexec f e c y) (Ends c).
Proof.
  intros V. pose proof (sinv_start _ _ _ S) as S0.
  destruct c as [t n os|t p|t p n os|t a b os|t d n os|t d n os|t n os|t|t i|x v].
  - destruct V as (V1 & V2). apply (ends_alloc (PMalloc t n os) os t (ehook e) n V1 V2); [reflexivity|reflexivity|exact Logic.I|intros x K; exact K|intros j b _ K; exact K].
  - destruct V as (V1 & V2). apply ends_unit. apply (done_of_free t p (PFree t p) None V1 V2); [reflexivity|reflexivity|left; reflexivity|exact Logic.I|intros x K; exact K|intros q; reflexivity].
  - apply ends_realloc. exact V.
  - destruct V as (V1 & V2 & V3 & V4 & V5). apply ends_ptr. eapply runs_mono; [exact (runs_calloc e (yset_tr y []) O os t a b S0 V1 (proj1 V2) (proj1 V3) V4 V5)|].
    intros (r & y') (O' & i & u & A & _). exists O'. apply (done_alloc e y O (PCalloc t a b os) _ _ _ _ _ _ _ _ S A); [reflexivity|reflexivity|exact Logic.I|intros x K; exact K|intros j b0 _ K; exact K].
  - cbn [pvalid] in V. unfold pexec, x_memalign. destruct (is_pow2 d) eqn:ED.
    + destruct (V eq_refl) as (V1 & V2). apply (ends_alloc (PMemalign t d n os) os t (fun _ => d) n V1 V2); [reflexivity|reflexivity|exact Logic.I|intros x K; exact K|intros j b _ K; exact K].
    + apply ends_ptr. apply (runs_ok _ (0, yset_tr y [])); [reflexivity|]. exists O. apply (done_act e y O (PMemalign t d n os) (Some 0) (yset_tr y []) O noT noN [] S (act_refl _ _ _ S0) Logic.I).
      * intros x K. exact K.
      * intros j b _. split; intros [].
      * intros j b _ [].
      * intros r K. injection K as <-. contradiction.
      * discriminate.
      * intros _ _. right. right. exists t, d, n, os. auto.
      * reflexivity.
  - destruct V as (V0 & V1 & V2). unfold pexec. rewrite V0. cbn [Z.eqb negb andb].
    apply (ends_alloc (PPosixMemalign t d n os) os t (fun _ => d) n V1 V2); [reflexivity|reflexivity|exact Logic.I|intros x K; exact K|intros j b _ K; exact K].
  - destruct V as (V1 & V2). apply (ends_alloc (PValloc t n os) os t (fun _ => 4096) n V1 V2); [reflexivity|reflexivity|exact Logic.I|intros x K; exact K|intros j b _ K; exact K].
  - apply ends_unit. destruct (ytls y t) as [i|] eqn:ET.
    + destruct (c_tls _ _ _ (sinv_cor _ _ _ S) t i ET) as (k & Hk & _). eapply runs_mono; [exact (runs_exit e (yset_tr y []) O t i k S0 ET Hk)|].
      intros (r & y') (O' & u & ev & r0 & w & A & _ & TT & AF). exists O'. exact (done_exit e y O t i k y' O' u ev r0 w S ET Hk A TT AF).
    + apply (runs_ok _ (0, yset_tr y [])); [intros f; unfold p_exit; cbn [yset_tr ytls]; rewrite ET; reflexivity|]. exists O. exact (done_exit_none e y O t S ET).
  - destruct V as (k & Hk & HI). unfold pexec. eapply runs_ok; [intros f; reflexivity|]. exact (done_use e y O t i k S Hk HI).
  - destruct V as (i & b & u & H & U & Hx). unfold pexec. eapply runs_ok; [intros f; reflexivity|]. exact (done_write e y O x v i b u S H U Hx).
Qed.
End Step.

Lemma pexec_done e y O c fuel er rp y' : SInv e y O -> pvalid e y O c -> pexec fuel e c y = Ok (er, rp, y') -> Done e y O c rp y' (obs_after O (ytr y')).
Proof. intros S V E. exact (runs_any _ _ _ _ (runs_pexec e y O S c V) E). Qed.

Theorem sreach_sinv e y O : sreach e y O -> SInv e y O.
Proof.
  induction 1 as [fuel m y W E|y O fuel c [er rp] y' R IH V E].
  - exact (proj1 (runs_any _ _ _ _ (runs_start e m W) E)).
  - exact (dn_inv _ _ _ _ _ _ _ (pexec_done _ _ _ _ _ _ _ _ IH V E)).
Qed.
