(** The queues of the chains along calls, and the segments that chains keep: lemmas behind C53 and C54. *)
From Verif Require Import Word Res Mem SizeClassModel ChainModel Wp ChainInv ChainSpec ChainStep ChainRefill ChainEv ChainProps ChainCap ChainSrc ChainPut ChainMore ChainCore ChainFuel ChainTrace ChainWalk
  RegionModel RegionSpec RegionProofs LightModel LightSpec LightProofs PosixModel PosixSpec PosixChain PosixInv PosixSrc PosixLocal PosixMid PosixCall PosixRun PosixEff PosixFun PosixPub PosixNew PosixApi PosixCopy
  PosixRealloc PosixStart PosixStep PosixMore ReclaimSpec ConcModel ConcSpec ConcInv ConcStep ConcReach ConcMore.
From Coq Require Import ZArith List Bool Permutation Lia.
Import ListNotations.
Open Scope Z_scope.

(** ** What a call adds to the trace *)
Lemma rbind_inv {A B} (x : res A) (f : A -> res B) (b : B) : rbind x f = Ok b -> exists a, x = Ok a /\ f a = Ok b.
Proof. destruct x as [a| | |]; cbn [rbind]; try discriminate. intros H. exists a. auto. Qed.
Lemma events_tr e c evs : forall y y', events e c evs y = Ok y' -> ytr y' = ytr y /\ ytls y' = ytls y.
Proof.
  induction evs as [|[b z|b] evs IH]; intros y y' H; cbn [events] in H.
  - injection H as <-. auto.
  - apply rbind_inv in H as ((u & s) & _ & H). apply IH in H. exact H.
  - apply rbind_inv in H as ((u & s) & _ & H). apply rbind_inv in H as (l & _ & H). apply IH in H. exact H.
Qed.
Lemma finish_tr e i k c r s y r' y' : finish e i k c r s y = Ok (r', y') -> ytr y' = TCall i c r (sevs s) :: ytr y /\ ytls y' = ytls y.
Proof. unfold finish. intros H. apply rbind_inv in H as (y1 & H1 & H2). injection H2 as <- <-. apply events_tr in H1 as (K1 & K2). split; [|exact K2]. unfold log. cbn [ytr yset_tr]. rewrite K1. reflexivity. Qed.
Definition same_op (c c' : op) : Prop := c' = c \/ exists b, c' = with_grant c b.
Lemma call_tr fuel e os i c y r y' : call fuel e os i c y = Ok (r, y') -> exists c' r' evs, ytr y' = TCall i c' r' evs :: ytr y /\ same_op c c' /\ ytls y' = ytls y.
Proof.
  unfold call. destruct (chain y i) as [k|]; [|discriminate]. intros H. apply rbind_inv in H as ((r1 & s1) & _ & H). destruct (wants (kg k) c r1) as [z|].
  - apply rbind_inv in H as ((b & l) & _ & H). apply rbind_inv in H as ((r2 & s2) & _ & H). destruct (existsb is_get (sevs s2)).
    + apply finish_tr in H as (H1 & H2). exists (with_grant c b). eexists. eexists. split; [exact H1|]. split; [right; eauto|exact H2].
    + apply finish_tr in H as (H1 & H2). exists c. eexists. eexists. split; [exact H1|]. split; [left; reflexivity|exact H2].
  - apply finish_tr in H as (H1 & H2). exists c. eexists. eexists. split; [exact H1|]. split; [left; reflexivity|exact H2].
Qed.
(** Calls of the trace that register no block in the queue of chain [i]. *)
Definition calm (i : nat) (tr : list titem) : Prop := forall p r evs, ~ In (TCall i (ORemote p) r evs) tr.
Lemma calm_app i a b : calm i a -> calm i b -> calm i (a ++ b).
Proof. intros A B p r evs H. apply in_app_iff in H as [H|H]; [exact (A _ _ _ H)|exact (B _ _ _ H)]. Qed.
Lemma chain_call_tr fuel e os i c y r y' : chain_call fuel e os i c y = Ok (r, y') ->
  exists u c' r' evs, ytr y' = u ++ TCall i c' r' evs :: ytr y /\ same_op c c' /\ ytls y' = ytls y /\ forall j d q ev, In (TCall j d q ev) u -> exists p, d = OFree p.
Proof.
  unfold chain_call. destruct (chain y i) as [k|]; [|discriminate]. intros H. apply rbind_inv in H as ((r1 & y1) & H1 & H). apply rbind_inv in H as (y2 & H2 & H). injection H as <- <-.
  destruct (call_tr _ _ _ _ _ _ _ _ H1) as (c' & r' & evs & E1 & E2 & E3).
  assert (S : exists u, ytr y2 = u ++ ytr y1 /\ ytls y2 = ytls y1 /\ forall j d q ev, In (TCall j d q ev) u -> exists p, d = OFree p).
  { unfold settle in H2. destruct (chain y1 i) as [k1|]; [|discriminate]. destruct (last_gone k1 (last_evs y1)).
    - apply rbind_inv in H2 as ((r3 & y3) & H3 & H2). injection H2 as <-. destruct (call_tr _ _ _ _ _ _ _ _ H3) as (c3 & r3' & ev3 & F1 & F2 & F3). exists [TDestroy i; TCall 0 c3 r3' ev3]. cbn [log ytr yset_tr put_chain yset_ch ytls app]. rewrite F1. split; [reflexivity|]. split; [exact F3|].
      intros j d q ev [K|[K|[]]]; [discriminate|]. injection K as _ <- _ _. destruct F2 as [->|(b & ->)]; cbn [with_grant]; eauto.
    - injection H2 as <-. exists []. split; [reflexivity|]. split; [reflexivity|]. intros j d q ev []. }
  destruct S as (u & S1 & S2 & S3). destruct (locks k c (ymem y)).
  - exists (TUnlock i :: u), c', r', evs. cbn [log ytr yset_tr ytls]. rewrite S1, E1. split; [reflexivity|]. split; [exact E2|]. split; [congruence|]. intros j d q ev [K|K]; [discriminate|exact (S3 _ _ _ _ K)].
  - exists u, c', r', evs. rewrite S1, E1. split; [reflexivity|]. split; [exact E2|]. split; [congruence|exact S3].
Qed.

(** Chain [i] was purged, and nothing was registered in its queue since. *)
Definition emptied (i : nat) (y y' : sys) : Prop := exists u r evs v, ytr y' = u ++ TCall i OPurge r evs :: v ++ ytr y /\ calm i u.
Lemma chain_call_calm fuel e os i c y r y' j : chain_call fuel e os i c y = Ok (r, y') -> (i = j -> forall p, c <> ORemote p) -> exists u, ytr y' = u ++ ytr y /\ calm j u /\ ytls y' = ytls y.
Proof.
  intros H N. destruct (chain_call_tr _ _ _ _ _ _ _ _ H) as (u & c' & r' & evs & E1 & E2 & E3 & E4). exists (u ++ [TCall i c' r' evs]). rewrite E1, <- app_assoc. split; [reflexivity|]. split; [|exact E3].
  intros p q ev K. apply in_app_iff in K as [K|[K|[]]]; [destruct (E4 _ _ _ _ K) as (p' & K'); discriminate|]. injection K as K1 K2 _ _. subst c'. destruct E2 as [E2|(b & E2)]; [exact (N K1 p (eq_sym E2))|]. destruct c; cbn [with_grant] in E2; try discriminate. exact (N K1 _ eq_refl).
Qed.
Lemma emptied_after i y y1 y2 u : emptied i y y1 -> ytr y2 = u ++ ytr y1 -> calm i u -> emptied i y y2.
Proof. intros (v & r & evs & w & E & C) H D. exists (u ++ v), r, evs, w. rewrite H, E, <- app_assoc. split; [reflexivity|apply calm_app; assumption]. Qed.
Lemma emptied_before i y y1 y2 u : emptied i y1 y2 -> ytr y1 = u ++ ytr y -> emptied i y y2.
Proof. intros (v & r & evs & w & E & C) H. exists v, r, evs, (w ++ u). rewrite E, H, <- app_assoc. split; [reflexivity|exact C]. Qed.
Lemma emptied_purge fuel e os i y r y' : chain_call fuel e os i OPurge y = Ok (r, y') -> emptied i y y' /\ ytls y' = ytls y.
Proof.
  intros H. destruct (chain_call_tr _ _ _ _ _ _ _ _ H) as (u & c' & r' & evs & E1 & E2 & E3 & E4). split; [|exact E3]. exists u, r', evs, []. cbn [app]. rewrite E1. split; [destruct E2 as [->|(b & ->)]; reflexivity|].
  intros p q ev K. destruct (E4 _ _ _ _ K) as (p' & K'). discriminate.
Qed.
Lemma local_tr fuel e t y l y1 i : with_local fuel e t y = Ok (l, y1) -> ytls y t = Some i -> l = i /\ y1 = y.
Proof. unfold with_local. intros H E. rewrite E in H. injection H as <- <-. auto. Qed.
Lemma emptied_alloc fuel e os t d n y r y' i : p_alloc fuel e os t d n y = Ok (r, y') -> ytls y t = Some i -> emptied i y y' /\ ytls y' = ytls y.
Proof.
  unfold p_alloc. intros H E. apply rbind_inv in H as ((l & y1) & H1 & H). destruct (local_tr _ _ _ _ _ _ _ H1 E) as (-> & ->). apply rbind_inv in H as ((r2 & y2) & H2 & H). destruct (emptied_purge _ _ _ _ _ _ _ H2) as (P1 & P2).
  destruct (chain_call_calm _ _ _ _ _ _ _ _ i H) as (u & U1 & U2 & U3); [intros _ p; discriminate|]. split; [exact (emptied_after _ _ _ _ _ P1 U1 U2)|congruence].
Qed.
Lemma lookup_tr e p y b y' : lookup e p y = Ok (b, y') -> ytr y' = ytr y /\ ytls y' = ytls y.
Proof. unfold lookup. intros H. apply rbind_inv in H as ((b' & s) & _ & H). injection H as _ <-. auto. Qed.
Lemma emptied_same i y y1 y2 : emptied i y y1 -> ytr y2 = ytr y1 -> emptied i y y2.
Proof. intros (u & r & evs & w & E & C) H. exists u, r, evs, w. rewrite H. auto. Qed.
Lemma emptied_free fuel e t p y r y' i : p_free fuel e t p y = Ok (r, y') -> ytls y t = Some i -> emptied i y y' /\ ytls y' = ytls y.
Proof.
  unfold p_free. intros H E. apply rbind_inv in H as ((l & y1) & H1 & H). destruct (local_tr _ _ _ _ _ _ _ H1 E) as (-> & ->). apply rbind_inv in H as ((r2 & y2) & H2 & H). destruct (emptied_purge _ _ _ _ _ _ _ H2) as (P1 & P2).
  destruct (p =? 0); [injection H as _ <-; auto|]. apply rbind_inv in H as ((b & y3) & H3 & H). destruct (lookup_tr _ _ _ _ _ H3) as (L1 & L2). destruct (b =? 0); [destruct (estrict e); [discriminate|]; injection H as _ <-; split; [exact (emptied_same _ _ _ _ P1 L1)|congruence]|].
  apply rbind_inv in H as (j & _ & H). destruct (chain_call_calm _ _ _ _ _ _ _ _ i H) as (u & U1 & U2 & U3).
  - intros -> q. rewrite Nat.eqb_refl, orb_true_r. discriminate.
  - split; [|congruence]. apply (emptied_after _ _ y2 _ u P1); [rewrite U1, L1; reflexivity|exact U2].
Qed.
Lemma memcpy_tr d s n y y' : p_memcpy d s n y = Ok y' -> ytr y' = ytr y /\ ytls y' = ytls y.
Proof. unfold p_memcpy. destruct (n =? 0); [intros H; injection H as <-; auto|]. match goal with |- context [if ?x then _ else _] => destruct x end; [|discriminate]. intros H. injection H as <-. auto. Qed.
Lemma memset_tr d n y y' : p_memset d n y = Ok y' -> ytr y' = ytr y /\ ytls y' = ytls y.
Proof. unfold p_memset. destruct (n =? 0); [intros H; injection H as <-; auto|]. match goal with |- context [if ?x then _ else _] => destruct x end; [|discriminate]. intros H. injection H as <-. auto. Qed.
Lemma emptied_inter fuel e os t j p n y r y' i : inter_chain fuel e os t j p n y = Ok (r, y') -> ytls y t = Some i -> emptied i y y'.
Proof.
  unfold inter_chain, p_malloc. intros H E. apply rbind_inv in H as ((q & y1) & H1 & H). destruct (emptied_alloc _ _ _ _ _ _ _ _ _ _ H1 E) as ((u & a & b & w & A1 & A2) & A3). apply rbind_inv in H as (y2 & H2 & H).
  assert (K : ytr y2 = ytr y1 /\ ytls y2 = ytls y1). { destruct (q =? 0); [injection H2 as <-; auto|]. apply rbind_inv in H2 as (z & _ & H2). exact (memcpy_tr _ _ _ _ _ H2). }
  destruct K as (K1 & K2). apply rbind_inv in H as ((q' & y3) & H3 & H). injection H as _ <-. destruct (emptied_free _ _ _ _ _ _ _ i H3) as (F1 & _); [congruence|].
  apply (emptied_before i y y2 y3 (u ++ TCall i OPurge a b :: w) F1). rewrite K1, A1, <- app_assoc. reflexivity.
Qed.

(** ** The queue of the caller's chain is empty after most calls *)
Lemma purge_obs tr i u r evs v : forall O, tr = u ++ TCall i OPurge r evs :: v -> calm i u -> pend (oat (obs_after O tr) i) = [].
Proof.
  intros O -> C. induction u as [|x u IH].
  - cbn [app obs_after fold_right]. change (fold_right obs1 O v) with (obs_after O v). set (O1 := obs_after O v). cbn [obs1]. destruct (Nat.lt_ge_cases i (length O1)) as [L|L].
    + rewrite oat_set_same by exact L. reflexivity.
    + unfold oat. rewrite nth_overflow; [reflexivity|]. rewrite set_nth_len. exact L.
  - assert (IH' : pend (oat (obs_after O (u ++ TCall i OPurge r evs :: v)) i) = []) by (apply IH; intros p q ev K; exact (C p q ev (or_intror K))). cbn [app obs_after fold_right]. change (fold_right obs1 O (u ++ TCall i OPurge r evs :: v)) with (obs_after O (u ++ TCall i OPurge r evs :: v)).
    set (O1 := obs_after O (u ++ TCall i OPurge r evs :: v)) in *. destruct x as [j c q ev|j|j|j]; cbn [obs1]; try exact IH'.
    + destruct (Nat.eq_dec j i) as [->|N]; [|rewrite oat_set_other by congruence; exact IH']. destruct (Nat.lt_ge_cases i (length O1)) as [L|L].
      * rewrite oat_set_same by exact L. destruct c; cbn [next pend]; try exact IH'; [|reflexivity]. exfalso. exact (C _ _ _ (or_introl eq_refl)).
      * unfold oat. rewrite nth_overflow; [reflexivity|]. rewrite set_nth_len. exact L.
    + unfold oat in *. destruct (Nat.lt_ge_cases i (length O1)) as [L|L]; [rewrite app_nth1 by exact L; exact IH'|]. rewrite app_nth2 by exact L. destruct (i - length O1)%nat as [|[|m]]; reflexivity.
Qed.
Lemma queue_emptied e y O c t i fuel er rp y' : SInv e y O -> ytls y t = Some i -> empties y O c t i -> pexec fuel e c y = Ok (er, rp, y') -> pend (oat (obs_after O (ytr y')) i) = [].
Proof.
  intros HS HT HE H. assert (E : emptied i (yset_tr y []) y').
  { unfold pexec in H. destruct c as [t' n os|t' p|t' p n os|t' a b os|t' d n os|t' d n os|t' n os|t'|t' j|x v]; cbn [empties] in HE.
    - subst t'. unfold ptr, p_malloc in H. apply rbind_inv in H as ((r & y1) & H & K). injection K as _ _ <-. exact (proj1 (emptied_alloc _ _ _ _ _ _ _ _ _ i H HT)).
    - subst t'. unfold unit_ in H. apply rbind_inv in H as ((r & y1) & H & K). injection K as _ _ <-. exact (proj1 (emptied_free _ _ _ _ _ _ _ i H HT)).
    - destruct HE as (-> & HE). unfold ptr, p_realloc, p_malloc in H. apply rbind_inv in H as ((r & y1) & H & K). injection K as _ _ <-. destruct (Z.eqb_spec p 0) as [Ep|Np]; [exact (proj1 (emptied_alloc _ _ _ _ _ _ _ _ _ i H HT))|].
      destruct (Z.eqb_spec n 0) as [En|Nn]; [apply rbind_inv in H as ((r2 & y2) & H & K); injection K as _ <-; exact (proj1 (emptied_free _ _ _ _ _ _ _ i H HT))|].
      destruct HE as [HE|[HE|(j & k & b & B1 & <- & B3 & B4 & B5 & B6)]]; [contradiction|contradiction|]. apply rbind_inv in H as ((l & y2) & H2 & H). destruct (local_tr _ _ _ _ _ _ _ H2 HT) as (-> & ->).
      destruct (look_held e (yset_tr y []) O j b (sinv_start _ _ _ HS) B1) as (rb & y3 & L1 & _ & _ & L4 & L5 & L6 & L7). rewrite L1 in H. cbn [rbind] in H. rewrite L6, L7 in H. cbn [rbind] in H.
      apply Nat.eqb_neq in B3. rewrite B3 in H. unfold is_shared, chain in H. rewrite L4 in H. change (nth j (ych (yset_tr y [])) None) with (chain y j) in H. rewrite B5, (proj2 (c_cfg _ _ _ (sinv_cor _ _ _ HS) j k B5 B4)), B6 in H. cbn [orb] in H.
      destruct (lookup_tr _ _ _ _ _ L1) as (T1 & T2). apply (emptied_before i (yset_tr y []) y3 _ []); [|rewrite T1; reflexivity]. apply (emptied_inter _ _ _ _ _ _ _ _ _ _ _ H). rewrite T2. exact HT.
    - subst t'. unfold ptr, p_calloc, p_malloc in H. apply rbind_inv in H as ((r & y1) & H & K). injection K as _ _ <-. apply rbind_inv in H as ((r2 & y2) & H & K). apply rbind_inv in K as (y3 & K1 & K). injection K as _ <-.
      destruct (memset_tr _ _ _ _ K1) as (M & _). exact (emptied_same _ _ _ _ (proj1 (emptied_alloc _ _ _ _ _ _ _ _ _ i H HT)) M).
    - destruct HE as (-> & HE). unfold ptr, x_memalign, p_memalign in H. rewrite HE in H. apply rbind_inv in H as ((r & y1) & H & K). injection K as _ _ <-. exact (proj1 (emptied_alloc _ _ _ _ _ _ _ _ _ i H HT)).
    - destruct HE as (-> & HE). assert (EN : negb (d mod 8 =? 0) && is_pow2 d = false) by (destruct HE as [HE|HE]; rewrite HE; [reflexivity|apply andb_false_r]). rewrite EN in H. unfold ptr, p_memalign in H. apply rbind_inv in H as ((r & y1) & H & K). injection K as _ _ <-. exact (proj1 (emptied_alloc _ _ _ _ _ _ _ _ _ i H HT)).
    - subst t'. unfold ptr, x_memalign, p_memalign in H. change (is_pow2 4096) with true in H. cbv iota in H. apply rbind_inv in H as ((r & y1) & H & K). injection K as _ _ <-. exact (proj1 (emptied_alloc _ _ _ _ _ _ _ _ _ i H HT)).
    - subst t'. unfold unit_, p_exit in H. change (ytls (yset_tr y []) t) with (ytls y t) in H. rewrite HT in H. destruct (chain (yset_tr y []) i) as [k|]; [|discriminate]. apply rbind_inv in H as ((r & y1) & H & K). injection K as _ _ <-. exact (proj1 (emptied_purge _ _ _ _ _ _ _ H)).
    - contradiction.
    - contradiction. }
  destruct E as (u & r & evs & v & E1 & E2). cbn [yset_tr ytr] in E1. exact (purge_obs _ i u r evs (v ++ []) O E1 E2).
Qed.

(** ** Segments are kept for a reason *)
Lemma live_held e y O i k b : SInv e y O -> chain y i = Some k -> i <> 0%nat -> In b (live (oat O i)) -> holds y O i b.
Proof.
  intros S Hk Ni Hb. pose proof (sinv_cor _ _ _ S) as I. split; [eauto|]. split; [exact Hb|]. intros HR.
  assert (P : ebuf e + 48 <= bp b <= ebuf e + EGG_MEM - 16 - 1).
  { destruct HR as [->|(j & kj & Nj & Hj & <-)].
    - destruct (c_light _ _ _ I) as (d & Hd). destruct (c_egg _ _ _ I) as (ke & H1 & _). destruct (egg_block e y O I (mkBlk (ylight y) LIGHT_SIZE d) ke H1) as (u & K1 & K2 & K3 & K4 & K5); [apply in_or_app; left; exact Hd|]. cbn [bp bn] in *. lia.
    - destruct (struct_in e y O I j kj Hj Nj) as (ke & d & u & K1 & K2 & K3 & K4 & K5 & K6). unfold CHAIN_SIZE in K4. lia. }
  destruct (blocks_inside _ _ _ (c_reach _ _ _ I i k Hk) b) as (u & x & z & K1 & K2 & K3 & K4 & K5 & K6); [apply in_or_app; left; exact Hb|].
  destruct (c_away _ _ _ I i k _ Ni Hk K4) as (_ & A). unfold apart in A. cbn [fst snd] in A. lia.
Qed.
Lemma seg_busy e y O i k x z : SInv e y O -> chain y i = Some k -> i <> 0%nat -> In (x, z) (segs (oat O i)) ->
  (exists b, holds y O i b /\ ChainSpec.inside (x, z) b = true) \/ (exists b, In b (pend (oat O i)) /\ ChainSpec.inside (x, z) b = true) \/ leaked y (x, z).
Proof.
  intros S Hk Ni HI. pose proof (sinv_cor _ _ _ S) as I. destruct (c_cfg _ _ _ I i k Hk Ni) as (C & _).
  destruct (source_busy _ _ _ (c_reach _ _ _ I i k Hk)) with (x := x) (z := z) as [(b & B1 & B2)|(w & c & B1 & B2)]; [rewrite C; reflexivity|rewrite C; reflexivity|exact HI| |].
  - apply in_app_iff in B1 as [B1|B1]; [left; exists b; split; [exact (live_held _ _ _ _ _ _ S Hk Ni B1)|exact B2]|right; left; eauto].
  - right. right. exists w, c. cbn [smem set_mem] in B1. auto.
Qed.
Lemma seg_busy_seq e y O i k x z : sreach e y O -> chain y i = Some k -> i <> 0%nat -> In (x, z) (segs (oat O i)) ->
  (exists b, holds y O i b /\ ChainSpec.inside (x, z) b = true) \/ (exists b, In b (pend (oat O i)) /\ ChainSpec.inside (x, z) b = true) \/ leaked y (x, z).
Proof. intros R. exact (seg_busy e y O i k x z (sreach_sinv _ _ _ R)). Qed.
Lemma seg_busy_conc e s O G i k x z : creach e s O G -> chain (cy s) i = Some k -> i <> 0%nat -> In (x, z) (segs (oat O i)) ->
  (exists b, holds (cy s) O i b /\ ChainSpec.inside (x, z) b = true) \/ (exists b, In b (pend (oat O i)) /\ ChainSpec.inside (x, z) b = true) \/ leaked (cy s) (x, z).
Proof. intros R. exact (seg_busy e (cy s) O i k x z (ci_inv _ _ _ _ (creach_inv _ _ _ _ R))). Qed.
(** Blocks of a chain lie in its segments. *)
Lemma block_seg e y O i b : SInv e y O -> holds y O i b -> segs (oat O i) <> [].
Proof.
  intros S ((k & Hk) & Hb & _) E. destruct (blocks_inside _ _ _ (c_reach _ _ _ (sinv_cor _ _ _ S) i k Hk) b) as (u & x & z & _ & _ & _ & K & _); [apply in_or_app; left; exact Hb|]. rewrite E in K. destruct K.
Qed.
(** ** A chain that is shared has nothing in its queue (without races, see C52) *)
Definition clear_sh (y : sys) (O : list obs) : Prop := forall i k, chain y i = Some k -> ksh k = true -> pend (oat O i) = [].
Definition Keep (y y' : sys) : Prop := exists u, ytr y' = u ++ ytr y /\
  forall O, length O = length (ych y) -> length (obs_after O u) = length (ych y') /\ (clear_sh y O -> clear_sh y' (obs_after O u)).
Lemma keep_refl y y' : ytr y' = ytr y -> ych y' = ych y -> Keep y y'.
Proof. intros H1 H2. exists []. split; [exact H1|]. intros O L. unfold clear_sh, chain. rewrite H2. auto. Qed.
Lemma keep_trans y1 y2 y3 : Keep y1 y2 -> Keep y2 y3 -> Keep y1 y3.
Proof.
  intros (u & U1 & U2) (v & V1 & V2). exists (v ++ u). rewrite V1, U1, app_assoc. split; [reflexivity|]. intros O L. destruct (U2 O L) as (A1 & A2). destruct (V2 _ A1) as (B1 & B2).
  unfold obs_after in *. rewrite fold_right_app. auto.
Qed.
Lemma events_ych e c evs : forall y y', events e c evs y = Ok y' -> ych y' = ych y.
Proof.
  induction evs as [|[b z|b] evs IH]; intros y y' H; cbn [events] in H.
  - injection H as <-. auto.
  - apply rbind_inv in H as ((u & s) & _ & H). apply IH in H. exact H.
  - apply rbind_inv in H as ((u & s) & _ & H). apply rbind_inv in H as (l & _ & H). apply IH in H. exact H.
Qed.
Lemma finish_ych e i k c r s y r' y' : finish e i k c r s y = Ok (r', y') -> ych y' = set_nth i (Some (mkChn (kg k) (ksh k) (kdes k) (clear_ev s))) (ych y).
Proof. unfold finish. intros H. apply rbind_inv in H as (y1 & H1 & H2). injection H2 as <- <-. apply events_ych in H1. exact H1. Qed.
Lemma call_ych fuel e os i c y r y' : call fuel e os i c y = Ok (r, y') -> exists k s, chain y i = Some k /\ ych y' = set_nth i (Some (mkChn (kg k) (ksh k) (kdes k) s)) (ych y).
Proof.
  unfold call. destruct (chain y i) as [k|]; [|discriminate]. intros H. exists k. apply rbind_inv in H as ((r1 & s1) & _ & H). destruct (wants (kg k) c r1) as [z|].
  - apply rbind_inv in H as ((b & l) & _ & H). apply rbind_inv in H as ((r2 & s2) & _ & H). destruct (existsb is_get (sevs s2)).
    + apply finish_ych in H. eexists. split; [reflexivity|exact H].
    + apply finish_ych in H. eexists. split; [reflexivity|exact H].
  - apply finish_ych in H. eexists. split; [reflexivity|exact H].
Qed.
Lemma next_pend o c r evs : pend o = [] -> (forall p, c <> ORemote p) -> pend (next o c r evs) = [].
Proof. intros H N. destruct c; cbn [next pend]; try exact H; [|reflexivity]. exfalso. exact (N _ eq_refl). Qed.
Lemma keep_call fuel e os i c y r y' : call fuel e os i c y = Ok (r, y') -> ((forall p, c <> ORemote p) \/ is_shared y i = false) -> Keep y y'.
Proof.
  intros H N. destruct (call_tr _ _ _ _ _ _ _ _ H) as (c' & r' & evs & E1 & E2 & _). destruct (call_ych _ _ _ _ _ _ _ _ H) as (k & s & Hk & EC). exists [TCall i c' r' evs]. split; [exact E1|].
  intros O L. cbn [obs_after fold_right obs1]. split; [rewrite set_nth_len, EC, set_nth_len; exact L|]. intros P j kj Hj Sj. unfold chain in Hj. rewrite EC in Hj. pose proof (chain_lt _ _ _ Hk) as LI. destruct (Nat.eq_dec i j) as [<-|Nj].
  - rewrite set_nth_same in Hj by exact LI. injection Hj as <-. cbn [ksh] in Sj. rewrite oat_set_same by lia. apply next_pend; [exact (P i k Hk Sj)|]. intros p ->.
    destruct N as [N|N]; [|unfold is_shared in N; rewrite Hk in N; congruence]. destruct E2 as [E2|(b & E2)]; [exact (N p (eq_sym E2))|]. destruct c; cbn [with_grant] in E2; try discriminate. exact (N _ eq_refl).
  - rewrite set_nth_other in Hj by exact Nj. rewrite oat_set_other by exact Nj. exact (P j kj Hj Sj).
Qed.
Lemma keep_chain fuel e os i c y r y' : chain_call fuel e os i c y = Ok (r, y') -> ((forall p, c <> ORemote p) \/ is_shared y i = false) -> Keep y y'.
Proof.
  unfold chain_call. destruct (chain y i) as [k|]; [|discriminate]. intros H N. apply rbind_inv in H as ((r1 & y1) & H1 & H). apply rbind_inv in H as (y2 & H2 & H). injection H as <- <-.
  apply (keep_trans _ y1); [exact (keep_call _ _ _ _ _ _ _ _ H1 N)|]. assert (K : Keep y1 y2).
  { unfold settle in H2. destruct (chain y1 i) as [k1|] eqn:E1; [|discriminate]. destruct (last_gone k1 (last_evs y1)); [|injection H2 as <-; apply keep_refl; reflexivity].
    apply rbind_inv in H2 as ((r3 & y3) & H3 & H2). injection H2 as <-. apply (keep_trans _ y3); [apply (keep_call _ _ _ _ _ _ _ _ H3); left; discriminate|]. exists [TDestroy i]. split; [reflexivity|]. intros O L. cbn [obs_after fold_right obs1 log yset_tr put_chain yset_ch ych].
    split; [rewrite set_nth_len; exact L|]. intros P j kj Hj Sj. unfold chain in Hj. cbn [log yset_tr put_chain yset_ch ych] in Hj. destruct (Nat.eq_dec i j) as [<-|Nj].
    - destruct (Nat.lt_ge_cases i (length (ych y3))) as [G|G]; [rewrite set_nth_same in Hj by exact G; discriminate|]. rewrite nth_overflow in Hj by (rewrite set_nth_len; exact G). discriminate.
    - rewrite set_nth_other in Hj by exact Nj. exact (P j kj Hj Sj). }
  apply (keep_trans _ y2); [exact K|]. destruct (locks k c (ymem y)); [|apply keep_refl; reflexivity]. exists [TUnlock i]. split; [reflexivity|]. intros O L. split; [exact L|]. intros P. exact P.
Qed.
Lemma keep_local fuel e t y l y' : with_local fuel e t y = Ok (l, y') -> Keep y y'.
Proof.
  unfold with_local. destruct (ytls y t); [intros H; injection H as _ <-; apply keep_refl; reflexivity|]. unfold create. intros H. apply rbind_inv in H as ((p & y1) & H1 & H). destruct (p =? 0); [discriminate|].
  apply rbind_inv in H as ((r & s) & _ & H). injection H as _ <-. apply (keep_trans _ y1); [apply (keep_call _ _ _ _ _ _ _ _ H1); left; discriminate|].
  exists [TNew (length (ych y1))]. split; [reflexivity|]. intros O L. cbn [obs_after fold_right obs1 log yset_tr yset_tls yset_ch ych]. rewrite !app_length. split; [cbn [length]; lia|].
  intros P j kj Hj Sj. unfold chain in Hj. cbn [log yset_tr yset_tls yset_ch ych] in Hj. unfold oat. destruct (Nat.lt_ge_cases j (length (ych y1))) as [G|G].
  - rewrite app_nth1 in Hj by exact G. rewrite app_nth1 by lia. exact (P j kj Hj Sj).
  - rewrite app_nth2 by lia. destruct (j - length O)%nat as [|[|m]]; reflexivity.
Qed.
Lemma keep_alloc fuel e os t d n y r y' : p_alloc fuel e os t d n y = Ok (r, y') -> Keep y y'.
Proof.
  unfold p_alloc. intros H. apply rbind_inv in H as ((l & y1) & H1 & H). apply rbind_inv in H as ((r2 & y2) & H2 & H). apply (keep_trans _ y1); [exact (keep_local _ _ _ _ _ _ H1)|].
  apply (keep_trans _ y2); [apply (keep_chain _ _ _ _ _ _ _ _ H2); left; discriminate|apply (keep_chain _ _ _ _ _ _ _ _ H); left; discriminate].
Qed.
Lemma lookup_ych e p y b y' : lookup e p y = Ok (b, y') -> ych y' = ych y.
Proof. unfold lookup. intros H. apply rbind_inv in H as ((b' & s) & _ & H). injection H as _ <-. reflexivity. Qed.
Lemma keep_free fuel e t p y r y' : p_free fuel e t p y = Ok (r, y') -> Keep y y'.
Proof.
  unfold p_free. intros H. apply rbind_inv in H as ((l & y1) & H1 & H). apply rbind_inv in H as ((r2 & y2) & H2 & H). apply (keep_trans _ y1); [exact (keep_local _ _ _ _ _ _ H1)|].
  apply (keep_trans _ y2); [apply (keep_chain _ _ _ _ _ _ _ _ H2); left; discriminate|]. destruct (p =? 0); [injection H as _ <-; apply keep_refl; reflexivity|]. apply rbind_inv in H as ((b & y3) & H3 & H).
  apply (keep_trans _ y3); [apply keep_refl; [exact (proj1 (lookup_tr _ _ _ _ _ H3))|exact (lookup_ych _ _ _ _ _ H3)]|]. destruct (b =? 0); [destruct (estrict e); [discriminate|]; injection H as _ <-; apply keep_refl; reflexivity|].
  apply rbind_inv in H as (j & _ & H). apply (keep_chain _ _ _ _ _ _ _ _ H). destruct (is_shared y3 j) eqn:SH; [left; intros q; cbn [orb]; discriminate|right; reflexivity].
Qed.
Lemma memcpy_ych d s n y y' : p_memcpy d s n y = Ok y' -> ych y' = ych y.
Proof. unfold p_memcpy. destruct (n =? 0); [intros H; injection H as <-; auto|]. match goal with |- context [if ?x then _ else _] => destruct x end; [|discriminate]. intros H. injection H as <-. auto. Qed.
Lemma memset_ych d n y y' : p_memset d n y = Ok y' -> ych y' = ych y.
Proof. unfold p_memset. destruct (n =? 0); [intros H; injection H as <-; auto|]. match goal with |- context [if ?x then _ else _] => destruct x end; [|discriminate]. intros H. injection H as <-. auto. Qed.
Lemma keep_inter fuel e os t j p n y r y' : inter_chain fuel e os t j p n y = Ok (r, y') -> Keep y y'.
Proof.
  unfold inter_chain, p_malloc. intros H. apply rbind_inv in H as ((q & y1) & H1 & H). apply rbind_inv in H as (y2 & H2 & H). apply rbind_inv in H as ((q' & y3) & H3 & H). injection H as _ <-.
  apply (keep_trans _ y1); [exact (keep_alloc _ _ _ _ _ _ _ _ _ H1)|]. apply (keep_trans _ y2); [|exact (keep_free _ _ _ _ _ _ _ H3)].
  destruct (q =? 0); [injection H2 as <-; apply keep_refl; reflexivity|]. apply rbind_inv in H2 as (z & _ & H2). apply keep_refl; [exact (proj1 (memcpy_tr _ _ _ _ _ H2))|exact (memcpy_ych _ _ _ _ _ H2)].
Qed.
Lemma keep_realloc fuel e os t p n y r y' : p_realloc fuel e os t p n y = Ok (r, y') -> Keep y y'.
Proof.
  unfold p_realloc, p_malloc. destruct (p =? 0); [apply keep_alloc|]. destruct (n =? 0).
  - intros H. apply rbind_inv in H as ((r2 & y2) & H & K). injection K as _ <-. exact (keep_free _ _ _ _ _ _ _ H).
  - intros H. apply rbind_inv in H as ((l & y1) & H1 & H). apply rbind_inv in H as ((b & y3) & H3 & H). apply (keep_trans _ y1); [exact (keep_local _ _ _ _ _ _ H1)|].
    apply (keep_trans _ y3); [apply keep_refl; [exact (proj1 (lookup_tr _ _ _ _ _ H3))|exact (lookup_ych _ _ _ _ _ H3)]|]. destruct (b =? 0); [discriminate|]. apply rbind_inv in H as (j & _ & H).
    match type of H with (if ?x then _ else _) = _ => destruct x end; [apply (keep_chain _ _ _ _ _ _ _ _ H); left; discriminate|exact (keep_inter _ _ _ _ _ _ _ _ _ _ H)].
Qed.
Lemma keep_exec fuel e c y er rp y' : pexec fuel e c y = Ok (er, rp, y') -> (forall t, c <> PExit t) -> Keep (yset_tr y []) y'.
Proof.
  intros H N. unfold pexec in H. destruct c as [t' n os|t' p|t' p n os|t' a b os|t' d n os|t' d n os|t' n os|t'|t' j|x v].
  - unfold ptr, p_malloc in H. apply rbind_inv in H as ((r & y1) & H & K). injection K as _ _ <-. exact (keep_alloc _ _ _ _ _ _ _ _ _ H).
  - unfold unit_ in H. apply rbind_inv in H as ((r & y1) & H & K). injection K as _ _ <-. exact (keep_free _ _ _ _ _ _ _ H).
  - unfold ptr in H. apply rbind_inv in H as ((r & y1) & H & K). injection K as _ _ <-. exact (keep_realloc _ _ _ _ _ _ _ _ _ H).
  - unfold ptr, p_calloc, p_malloc in H. apply rbind_inv in H as ((r & y1) & H & K). injection K as _ _ <-. apply rbind_inv in H as ((r2 & y2) & H & K). apply rbind_inv in K as (y3 & K1 & K). injection K as _ <-.
    apply (keep_trans _ y2); [exact (keep_alloc _ _ _ _ _ _ _ _ _ H)|]. apply keep_refl; [exact (proj1 (memset_tr _ _ _ _ K1))|exact (memset_ych _ _ _ _ K1)].
  - unfold ptr, x_memalign, p_memalign in H. apply rbind_inv in H as ((r & y1) & H & K). injection K as _ _ <-. destruct (is_pow2 d); [exact (keep_alloc _ _ _ _ _ _ _ _ _ H)|injection H as _ <-; apply keep_refl; reflexivity].
  - destruct (negb (d mod 8 =? 0) && is_pow2 d); [injection H as _ _ <-; apply keep_refl; reflexivity|]. unfold ptr, p_memalign in H. apply rbind_inv in H as ((r & y1) & H & K). injection K as _ _ <-. exact (keep_alloc _ _ _ _ _ _ _ _ _ H).
  - unfold ptr, x_memalign, p_memalign in H. apply rbind_inv in H as ((r & y1) & H & K). injection K as _ _ <-. destruct (is_pow2 4096); [exact (keep_alloc _ _ _ _ _ _ _ _ _ H)|injection H as _ <-; apply keep_refl; reflexivity].
  - exfalso. exact (N t' eq_refl).
  - injection H as _ _ <-. apply keep_refl; reflexivity.
  - injection H as _ _ <-. apply keep_refl; reflexivity.
Qed.
Lemma clear_exit fuel e t y O er rp y' : length O = length (ych y) -> pexec fuel e (PExit t) y = Ok (er, rp, y') -> clear_sh y O -> clear_sh y' (obs_after O (ytr y')).
Proof.
  intros L H P. pose proof H as H0. unfold pexec, unit_, p_exit in H. change (ytls (yset_tr y []) t) with (ytls y t) in H. destruct (ytls y t) as [i|] eqn:HT; [|apply rbind_inv in H as ((r & y1) & H & K); injection K as _ _ <-; injection H as _ <-; exact P].
  destruct (chain (yset_tr y []) i) as [k|] eqn:Hk; [|discriminate]. apply rbind_inv in H as ((r & y1) & H & K). injection K as _ _ <-.
  destruct (emptied_purge _ _ _ _ _ _ _ H) as ((u & a & b & v & E1 & E2) & _). pose proof (purge_obs (ytr y1) i u a b (v ++ []) O E1 E2) as PI.
  destruct (keep_chain _ _ _ _ _ _ _ _ H) as (w & W1 & W2); [left; discriminate|]. cbn [put_chain yset_ch yset_tls yset_tr ytr ych] in W1, W2. rewrite app_nil_r in W1. rewrite W1 in PI |- *.
  (* the other chains: the same as without the mark *)
  assert (Q : forall j kj, chain y1 j = Some kj -> ksh kj = true -> j <> i -> pend (oat (obs_after O w) j) = []).
  { intros j kj Hj Sj Nj. set (O1 := set_nth i obs0 O). assert (L1 : length O1 = length O) by apply set_nth_len.
    assert (P1 : clear_sh (put_chain (yset_tls (yset_tr y []) t (Some 0%nat)) i (Some (mkChn (kg k) true true (kst k)))) O1).
    { intros m km Hm Sm. unfold O1. destruct (Nat.eq_dec i m) as [<-|Nm]; [rewrite oat_set_same; [reflexivity|pose proof (chain_lt _ _ _ Hk) as G; cbn [yset_tr ych] in G; lia]|]. rewrite oat_set_other by exact Nm.
      rewrite chain_put_other in Hm by exact Nm. exact (P m km Hm Sm). }
    destruct (W2 O1) as (_ & W3); [rewrite set_nth_len; lia|]. specialize (W3 P1 j kj Hj Sj). rewrite <- W3. clear - Nj L.
    assert (G : forall w, pend (oat (obs_after O w) j) = pend (oat (obs_after O1 w) j) /\ length (obs_after O w) = length (obs_after O1 w) /\ (j < length (obs_after O w) -> oat (obs_after O w) j = oat (obs_after O1 w) j)%nat).
    { intros v0. induction v0 as [|x v0 (IH1 & IH2 & IH3)].
      - change (obs_after O []) with O. change (obs_after O1 []) with O1. assert (E : oat O1 j = oat O j) by (apply oat_set_other; congruence). rewrite E. assert (E2 : length O1 = length O) by apply set_nth_len. rewrite E2. auto.
      - cbn [obs_after fold_right]. change (fold_right obs1 O v0) with (obs_after O v0). change (fold_right obs1 O1 v0) with (obs_after O1 v0). destruct x as [m c r evs|m|m|m]; cbn [obs1]; auto.
        + rewrite !set_nth_len. destruct (Nat.eq_dec m j) as [->|Nm].
          * destruct (Nat.lt_ge_cases j (length (obs_after O v0))) as [G|G]; [rewrite !oat_set_same by lia; rewrite (IH3 G); auto|]. unfold oat. rewrite !nth_overflow by (rewrite set_nth_len; lia). auto.
          * rewrite !oat_set_other by exact Nm. auto.
        + rewrite !app_length. unfold oat in *. destruct (Nat.lt_ge_cases j (length (obs_after O v0))) as [G|G].
          * rewrite !app_nth1 by lia. rewrite (IH3 G). auto.
          * rewrite !app_nth2 by lia. rewrite IH2. auto. }
    exact (proj1 (G w)). }
  intros j kj Hj Sj. destruct (Nat.eq_dec j i) as [->|Nj]; [exact PI|exact (Q j kj Hj Sj Nj)].
Qed.
Lemma shared_clear e y O : sreach e y O -> clear_sh y O.
Proof.
  intros R. induction R as [fuel m y W E|y O fuel c [er rp] y' R IH V E].
  - intros i k Hk Sk. unfold start_obs, oat. destruct i as [|[|i]]; reflexivity.
  - pose proof (sreach_sinv _ _ _ R) as S. pose proof (c_len _ _ _ (sinv_cor _ _ _ S)) as L.
    assert (D : (forall t, c <> PExit t) \/ exists t, c = PExit t) by (destruct c; try (left; discriminate); right; eauto). destruct D as [N|(t & ->)]; [|exact (clear_exit _ _ _ _ _ _ _ _ L E IH)].
    destruct (keep_exec _ _ _ _ _ _ _ E N) as (u & U1 & U2). cbn [yset_tr ytr] in U1. rewrite app_nil_r in U1. rewrite U1. destruct (U2 O) as (_ & K); [exact L|]. exact (K IH).
Qed.

(** ** Theorems of C53 and C54 *)
Lemma queue_empty_after e y O c t i fuel er rp y' : sreach e y O -> pvalid e y O c -> ytls y t = Some i -> empties y O c t i -> pexec fuel e c y = Ok (er, rp, y') ->
  pend (oat (obs_after O (ytr y')) i) = [].
Proof. intros R V. exact (queue_emptied e y O c t i fuel er rp y' (sreach_sinv _ _ _ R)). Qed.
(** All that is allocated in a chain: the blocks of the program (and of the library, in the egg), those in the queue, the lost pieces. *)
Lemma used_by e y O i k r : SInv e y O -> chain y i = Some k -> In r (segs (oat O i)) -> exists lk,
  Permutation (occ_in (ymem y) r) (map (fun b => occ (ymem y) (bp b)) (filter (ChainSpec.inside r) (blocks (oat O i))) ++ lk) /\
  (forall w c, In (w, c) lk -> i <> 0%nat /\ 1048576 <= c <= 1048576 + 16).
Proof.
  intros S Hk Hr. pose proof (sinv_cor _ _ _ S) as I. destruct (reach_good _ _ _ (c_reach _ _ _ I i k Hk)) as (A & F & G). destruct (conserved_gen _ _ _ _ _ G r Hr) as (lk & P & L & _). exists lk. split; [exact P|].
  intros w c HI. destruct (L w c HI) as (L1 & L2). split; [|exact L2]. intros ->. destruct (c_egg _ _ _ I) as (k0 & K1 & K2 & _). rewrite Hk in K1. injection K1 as <-. rewrite K2 in L1. discriminate.
Qed.
Lemma memory_back e y O c t i fuel er rp y' r : sreach e y O -> pvalid e y O c -> ytls y t = Some i -> empties y O c t i -> pexec fuel e c y = Ok (er, rp, y') ->
  let O' := obs_after O (ytr y') in chain y' i <> None -> In r (segs (oat O' i)) -> exists lk,
  Permutation (occ_in (ymem y') r) (map (fun b => occ (ymem y') (bp b)) (filter (ChainSpec.inside r) (live (oat O' i))) ++ lk) /\
  (forall w c, In (w, c) lk -> i <> 0%nat /\ 1048576 <= c <= 1048576 + 16).
Proof.
  intros R V HT HE E O' NN Hr. destruct (chain y' i) as [k|] eqn:Hk; [|congruence]. pose proof (queue_empty_after _ _ _ _ _ _ _ _ _ _ R V HT HE E) as PE. fold O' in PE.
  destruct (used_by e y' O' i k r (sreach_sinv _ _ _ (sreach_step e y O fuel c (er, rp) y' R V E)) Hk Hr) as (lk & P & L). exists lk. split; [|exact L]. unfold blocks in P. rewrite PE, app_nil_r in P. exact P.
Qed.
Lemma realloc_keeps_queue e y O t i n os b fuel er rp y' : sreach e y O -> ytls y t = Some i -> holds y O i b -> n <> 0 -> pexec fuel e (PRealloc t (bp b) n os) y = Ok (er, rp, y') ->
  pend (oat (obs_after O (ytr y')) i) = pend (oat O i).
Proof.
  intros R HT HB Nn H. pose proof (sreach_sinv _ _ _ R) as HS. unfold pexec, ptr, p_realloc in H. apply rbind_inv in H as ((r & y1) & H & K). injection K as _ _ <-.
  assert (B0 : bp b <> 0) by (destruct (held_size _ _ _ _ _ HS HB) as (u & _ & K1 & K2 & K3 & _); lia).
  apply Z.eqb_neq in B0, Nn. rewrite B0, Nn in H. apply rbind_inv in H as ((l & y2) & H2 & H). destruct (local_tr _ _ _ _ _ _ _ H2 HT) as (-> & ->).
  destruct (look_held e (yset_tr y []) O i b (sinv_start _ _ _ HS) HB) as (rb & y3 & L1 & _ & _ & L4 & L5 & L6 & L7). rewrite L1 in H. cbn [rbind] in H. rewrite L6, L7 in H. cbn [rbind] in H. rewrite Nat.eqb_refl in H. cbn [orb] in H.
  destruct (lookup_tr _ _ _ _ _ L1) as (T1 & _). destruct (chain_call_tr _ _ _ _ _ _ _ _ H) as (u & c' & r' & evs & E1 & E2 & _ & E4). rewrite E1, T1. cbn [yset_tr ytr].
  assert (N1 : forall o q ev, pend (next o c' q ev) = pend o) by (intros o q ev; destruct E2 as [->|(x & ->)]; reflexivity). clear E1.
  induction u as [|x u IH].
  - cbn [app obs_after fold_right obs1]. destruct (Nat.lt_ge_cases i (length O)) as [G|G]; [rewrite oat_set_same by exact G; apply N1|]. unfold oat. rewrite !nth_overflow by (rewrite ?set_nth_len; exact G). reflexivity.
  - assert (IH' : pend (oat (obs_after O (u ++ [TCall i c' r' evs])) i) = pend (oat O i)) by (apply IH; intros j d q ev K; exact (E4 j d q ev (or_intror K))). cbn [app obs_after fold_right]. change (fold_right obs1 O (u ++ [TCall i c' r' evs])) with (obs_after O (u ++ [TCall i c' r' evs])).
    destruct x as [j c q ev|j|j|j]; cbn [obs1]; try exact IH'.
    + destruct (E4 j c q ev (or_introl eq_refl)) as (p & ->). destruct (Nat.eq_dec j i) as [->|N]; [|rewrite oat_set_other by exact N; exact IH']. set (O1 := obs_after O (u ++ [TCall i c' r' evs])) in *.
      destruct (Nat.lt_ge_cases i (length O1)) as [G|G]; [rewrite oat_set_same by exact G; exact IH'|]. rewrite <- IH'. unfold oat. rewrite !nth_overflow by (rewrite ?set_nth_len; exact G). reflexivity.
    + rewrite <- IH'. unfold oat. set (O1 := obs_after O (u ++ [TCall i c' r' evs])) in *. destruct (Nat.lt_ge_cases i (length O1)) as [G|G]; [rewrite app_nth1 by exact G; reflexivity|]. rewrite app_nth2 by exact G. rewrite (nth_overflow O1) by exact G. destruct (i - length O1)%nat as [|[|m]]; reflexivity.
Qed.
Lemma marked_clear e y O i k : sreach e y O -> chain y i = Some k -> i <> 0%nat -> kdes k = true -> pend (oat O i) = [].
Proof. intros R Hk Ni Kd. apply (shared_clear _ _ _ R i k Hk). rewrite (proj2 (c_cfg _ _ _ (sinv_cor _ _ _ (sreach_sinv _ _ _ R)) i k Hk Ni)). exact Kd. Qed.
Lemma gone_with_last e y O tr y' O' i k : sreach e y O -> chain y i = Some k -> i <> 0%nat -> kdes k = true -> segs (oat O i) <> [] -> later e y O tr y' O' ->
  (forall r, In r (segs (oat O' i)) -> ~ leaked y' r) ->
  (In (TDestroy i) tr <-> forall b, ~ holds y' O' i b) /\ (chain y' i = None <-> forall b, ~ holds y' O' i b).
Proof.
  intros R Hk Ni Kd HS L HL. destruct (marked_once _ _ _ _ _ _ _ _ R Hk Ni Kd HS L) as (A1 & A2 & _ & _). pose proof (later_sreach _ _ _ _ _ _ R L) as R'. pose proof (sreach_sinv _ _ _ R') as S'.
  assert (K : segs (oat O' i) = [] <-> forall b, ~ holds y' O' i b).
  { split; [intros E b Hb; exact (block_seg _ _ _ _ _ S' Hb E)|]. intros NB. destruct (chain y' i) as [k'|] eqn:Hk'; [|apply A1; reflexivity]. destruct (segs (oat O' i)) as [|(x, z) l] eqn:ES; [reflexivity|]. exfalso.
    assert (KD : kdes k' = true). { destruct (later_mark _ _ _ _ _ _ _ _ R Hk Ni Kd L) as [(k1 & B1 & _ & B3 & _)|(_ & B2 & _)]; congruence. }
    destruct (seg_busy e y' O' i k' x z S' Hk' Ni) as [(b & B & _)|[(b & B & _)|B]]; [rewrite ES; left; reflexivity|exact (NB b B)|rewrite (marked_clear _ _ _ _ _ R' Hk' Ni KD) in B; destruct B|exact (HL (x, z) (or_introl eq_refl) B)]. }
  rewrite <- K. tauto.
Qed.
Lemma conc_gone e s O tr s' O' G i k : creach e s O G -> chain (cy s) i = Some k -> i <> 0%nat -> kdes k = true -> segs (oat O i) <> [] -> clater e s O tr s' O' ->
  (forall r, In r (segs (oat O' i)) -> ~ leaked (cy s') r) ->
  (In (TDestroy i) tr <-> pend (oat O' i) = [] /\ forall b, ~ holds (cy s') O' i b).
Proof.
  intros R Hk Ni Kd HS L HL. destruct (conc_marked_once _ _ _ _ _ _ _ _ _ R Hk Ni Kd HS L) as (A1 & A2 & _ & _). destruct (clater_creach _ _ _ _ _ _ _ R L) as (G' & R'). pose proof (ci_inv _ _ _ _ (creach_inv _ _ _ _ R')) as S'. rewrite A2. split.
  - intros E. split; [|intros b Hb; exact (block_seg _ _ _ _ _ S' Hb E)]. pose proof (proj2 A1 E) as DN. rewrite (c_dead _ _ _ (sinv_cor _ _ _ S') i DN). reflexivity.
  - intros (HP & NB). destruct (chain (cy s') i) as [k'|] eqn:Hk'; [|apply A1; reflexivity]. destruct (segs (oat O' i)) as [|(x, z) l] eqn:ES; [reflexivity|]. exfalso.
    destruct (seg_busy e (cy s') O' i k' x z S' Hk' Ni) as [(b & B & _)|[(b & B & _)|B]]; [rewrite ES; left; reflexivity|exact (NB b B)|rewrite HP in B; destruct B|exact (HL (x, z) (or_introl eq_refl) B)].
Qed.
