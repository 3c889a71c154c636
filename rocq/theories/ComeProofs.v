(** C84: proofs. *)
From Verif Require Import Word Res Mem SizeClassModel ChainModel Wp ChainInv ChainSpec ChainStep ChainRefill ChainEv ChainProps ChainCap ChainSrc ChainPut ChainMore ChainCore ChainFuel ChainTrace ChainWalk ChainFit
  RegionModel RegionSpec RegionProofs LightModel LightSpec LightProofs PosixModel PosixSpec PosixChain PosixInv PosixSrc PosixLocal PosixMid PosixCall PosixRun PosixEff PosixFun PosixPub PosixNew PosixApi PosixCopy
  PosixRealloc PosixStart PosixStep PosixMore ReclaimSpec ConcModel ConcSpec PosixQueue ComeSpec.
From Coq Require Import ZArith List Bool Permutation Lia.
Import ListNotations.
Open Scope Z_scope.

Definition pool_of (y : sys) (i : nat) : Z := match chain y i with Some k => cpool (kg k) | None => 0 end.
Lemma standing_in y i : In i (standing y) <-> i <> 0%nat /\ exists k, chain y i = Some k.
Proof.
  unfold standing. rewrite filter_In, in_seq. split.
  - intros (H1 & H2). split; [lia|]. destruct (chain y i) as [k|]; [eauto|discriminate].
  - intros (H1 & k & H2). split; [pose proof (chain_lt _ _ _ H2); lia|]. rewrite H2. reflexivity.
Qed.
Lemma standing_nodup y : NoDup (standing y).
Proof. apply NoDup_filter, seq_NoDup. Qed.

Lemma nodup_bp l : NoDup (map bp l) -> forall b b', In b l -> In b' l -> bp b = bp b' -> b = b'.
Proof.
  induction l as [|a l IH]; intros N b b' H H' E; [destruct H|]. cbn [map] in N. apply NoDup_cons_iff in N as (N1 & N2).
  destruct H as [->|H], H' as [->|H'].
  - reflexivity.
  - exfalso. apply N1. rewrite E. apply in_map. exact H'.
  - exfalso. apply N1. rewrite <- E. apply in_map. exact H.
  - apply IH; assumption.
Qed.
Lemma nodup_map {A B} (f : A -> B) l : NoDup (map f l) -> NoDup l.
Proof. exact (NoDup_map_inv f l). Qed.

Lemma total_cons x l : ChainSpec.total (x :: l) = snd x + ChainSpec.total l.
Proof. reflexivity. Qed.
Lemma total_pos l : (forall x, In x l -> 0 <= snd x) -> 0 <= ChainSpec.total l.
Proof. induction l as [|x l IH]; intros H; [unfold ChainSpec.total; cbn; lia|]. rewrite total_cons. specialize (IH (fun y K => H y (or_intror K))). specialize (H x (or_introl eq_refl)). lia. Qed.
Lemma total_sub {A} (f : A -> Z * Z) : forall l l', NoDup l -> incl l l' -> (forall x, In x l' -> 0 <= snd (f x)) -> ChainSpec.total (map f l) <= ChainSpec.total (map f l').
Proof.
  induction l as [|x l IH]; intros l' N I P.
  - apply total_pos. intros z Hz. apply in_map_iff in Hz as (x & <- & Hx). exact (P x Hx).
  - apply NoDup_cons_iff in N as (N1 & N2). destruct (in_split x l' (I x (or_introl eq_refl))) as (a & b & ->).
    assert (I' : incl l (a ++ b)).
    { intros z Hz. pose proof (I z (or_intror Hz)) as K. apply in_app_iff in K as [K|[K|K]]; [apply in_app_iff; left; exact K|subst z; contradiction|apply in_app_iff; right; exact K]. }
    specialize (IH (a ++ b) N2 I'). assert (P' : forall z, In z (a ++ b) -> 0 <= snd (f z)) by (intros z Hz; apply P; apply in_app_iff in Hz as [K|K]; apply in_app_iff; [left|right; right]; exact K).
    specialize (IH P'). rewrite !map_app in *. cbn [map]. rewrite !ChainWalk.total_app in *. rewrite !total_cons. lia.
Qed.
Lemma total_ge {A} (f : A -> Z * Z) v : forall l, (forall x, In x l -> v <= snd (f x)) -> v * Z.of_nat (length l) <= ChainSpec.total (map f l).
Proof.
  induction l as [|x l IH]; intros H; [unfold ChainSpec.total; cbn; lia|]. cbn [map length]. rewrite total_cons. specialize (IH (fun z K => H z (or_intror K))). specialize (H x (or_introl eq_refl)). lia.
Qed.
Lemma total_le {A} (f : A -> Z * Z) v : forall l, (forall x, In x l -> snd (f x) <= v) -> ChainSpec.total (map f l) <= v * Z.of_nat (length l).
Proof.
  induction l as [|x l IH]; intros H; [unfold ChainSpec.total; cbn; lia|]. cbn [map length]. rewrite total_cons. specialize (IH (fun z K => H z (or_intror K))). specialize (H x (or_introl eq_refl)). lia.
Qed.

Lemma all_free_one m o r : segs o = [r] -> all_free m o = free_in m r.
Proof. intros H. unfold all_free. rewrite H. apply app_nil_r. Qed.
Lemma create_zero f e t y y1 : call f e no_os 0 (OAlloc (ehook e CHAIN_SIZE) CHAIN_SIZE None) y = Ok (0, y1) -> create f e t y = UB.
Proof. intros H. unfold create. rewrite H. reflexivity. Qed.
Lemma create_fuel f e t y : call f e no_os 0 (OAlloc (ehook e CHAIN_SIZE) CHAIN_SIZE None) y = OutOfFuel -> create f e t y = OutOfFuel.
Proof. intros H. unfold create. rewrite H. reflexivity. Qed.

Section Egg.
  Variables (e : env) (y : sys) (O : list obs).
  Hypothesis S : SInv e y O.
  Let m := ymem y.
  Let R : Z * Z := (ebuf e, EGG_MEM).

  Lemma egg_chain : exists k, chain y 0 = Some k /\ kg k = egg_cfg e /\ ksh k = true /\ reach (egg_cfg e) (set_mem (kst k) m) (oat O 0).
  Proof.
    pose proof (sinv_cor _ _ _ S) as Co. destruct (c_egg _ _ _ Co) as (k & H1 & H2 & H3). exists k. split; [exact H1|]. split; [exact H2|]. split; [exact H3|].
    rewrite <- H2. exact (c_reach _ _ _ Co 0%nat k H1).
  Qed.
  Lemma egg_whole : 48 + ChainSpec.total (map (fun b => occ m (bp b)) (filter (ChainSpec.inside R) (blocks (oat O 0)))) + ChainSpec.total (free_in m R) = EGG_MEM /\
    Permutation (occ_in m R) (map (fun b => occ m (bp b)) (filter (ChainSpec.inside R) (blocks (oat O 0)))).
  Proof.
    destruct egg_chain as (k & _ & _ & _ & RC). destruct (conserved _ _ _ RC eq_refl R) as (P & T).
    - rewrite (c_eseg _ _ _ (sinv_cor _ _ _ S)). left. reflexivity.
    - split; [exact T|exact P].
  Qed.
  Lemma egg_occ b : In b (blocks (oat O 0)) -> ChainSpec.inside R b = true /\ bn b + 16 <= snd (occ m (bp b)).
  Proof.
    intros H. destruct egg_chain as (k & Hk & EG & _ & RC). destruct (egg_block e y O (sinv_cor _ _ _ S) b k Hk H) as (u & U & U1 & U2 & U3 & U4).
    destruct (block_occ _ _ _ RC b u H U) as (w & c & x & z & Q1 & _ & _ & _ & Q2 & Q3 & _). cbn [smem set_mem] in Q1. rewrite Q1. cbn [snd]. split; [|lia].
    unfold ChainSpec.inside, R. cbn [fst snd]. unfold EGG_MEM in *. lia.
  Qed.

  (** The structures of the chains and of the source are blocks of the egg. *)
  Lemma structs : forall L, (forall i, In i L -> In i (standing y)) -> exists l, map bp l = map (pool_of y) L /\ incl l (live (oat O 0)) /\ forall b, In b l -> bn b = CHAIN_SIZE.
  Proof.
    induction L as [|i L IH]; intros H; [exists []; split; [reflexivity|]; split; [intros x []|intros x []]|].
    destruct (IH (fun j K => H j (or_intror K))) as (l & L1 & L2 & L3). pose proof (H i (or_introl eq_refl)) as K. apply standing_in in K as (Ni & k & Hk).
    destruct (c_struct _ _ _ (sinv_cor _ _ _ S) i k Hk Ni) as (d & Hd). exists (mkBlk (cpool (kg k)) CHAIN_SIZE d :: l). split; [|split].
    - cbn [map bp]. rewrite L1. unfold pool_of at 2. rewrite Hk. reflexivity.
    - intros b [<-|Hb]; [exact Hd|exact (L2 b Hb)].
    - intros b [<-|Hb]; [reflexivity|exact (L3 b Hb)].
  Qed.
  Lemma pools_nodup : NoDup (map (pool_of y) (standing y)).
  Proof.
    assert (G : forall L, NoDup L -> (forall i, In i L -> In i (standing y)) -> NoDup (map (pool_of y) L)).
    { induction L as [|i L IH]; intros N H; [constructor|]. apply NoDup_cons_iff in N as (N1 & N2). cbn [map]. constructor; [|exact (IH N2 (fun j K => H j (or_intror K)))].
      intros K. apply in_map_iff in K as (j & E & Hj). pose proof (H i (or_introl eq_refl)) as Ki. pose proof (H j (or_intror Hj)) as Kj. apply standing_in in Ki as (_ & ki & Ki). apply standing_in in Kj as (_ & kj & Kj).
      unfold pool_of in E. rewrite Ki, Kj in E. rewrite (c_inj _ _ _ (sinv_cor _ _ _ S) j i kj ki Kj Ki E) in Hj. contradiction. }
    exact (G _ (standing_nodup y) (fun i K => K)).
  Qed.

  Lemma room_used : 136 + 1696 * alive y + ChainSpec.total (free_in m R) <= EGG_MEM.
  Proof.
    destruct egg_whole as (T & _). destruct egg_chain as (k & Hk & EG & _ & RC). pose proof (live_nodup _ _ _ RC) as ND.
    destruct (structs (standing y) (fun i K => K)) as (l & L1 & L2 & L3). destruct (c_light _ _ _ (sinv_cor _ _ _ S)) as (d & HD). set (b0 := mkBlk (ylight y) LIGHT_SIZE d) in *.
    assert (NI : ~ In b0 l) by (intros K; specialize (L3 b0 K); unfold b0, LIGHT_SIZE, CHAIN_SIZE in L3; cbn [bn] in L3; lia).
    assert (NL : NoDup (b0 :: l)) by (constructor; [exact NI|]; apply (nodup_map bp); rewrite L1; exact pools_nodup).
    assert (IN : incl (b0 :: l) (filter (ChainSpec.inside R) (blocks (oat O 0)))).
    { intros b Hb. assert (K : In b (blocks (oat O 0))) by (apply in_app_iff; left; destruct Hb as [<-|Hb]; [exact HD|exact (L2 b Hb)]). apply filter_In. split; [exact K|exact (proj1 (egg_occ b K))]. }
    pose proof (total_sub (fun b => occ m (bp b)) (b0 :: l) _ NL IN) as TS.
    assert (POS : forall b, In b (filter (ChainSpec.inside R) (blocks (oat O 0))) -> 0 <= snd (occ m (bp b))).
    { intros b Hb. apply filter_In in Hb as (Hb & _). destruct (egg_occ b Hb) as (_ & Q). destruct (egg_block e y O (sinv_cor _ _ _ S) b k Hk Hb) as (u & _ & U1 & U2 & _). lia. }
    specialize (TS POS). cbn [map] in TS. rewrite total_cons in TS.
    assert (G0 : 88 <= snd (occ m (bp b0))). { destruct (egg_occ b0) as (_ & Q); [apply in_app_iff; left; exact HD|]. unfold b0, LIGHT_SIZE in *. cbn [bn] in Q. lia. }
    assert (GL : 1696 * Z.of_nat (length l) <= ChainSpec.total (map (fun b => occ m (bp b)) l)).
    { apply total_ge. intros b Hb. destruct (egg_occ b) as (_ & Q); [apply in_app_iff; left; exact (L2 b Hb)|]. rewrite (L3 b Hb) in Q. unfold CHAIN_SIZE in Q. lia. }
    assert (LL : length l = length (standing y)) by (rewrite <- (map_length bp l), L1; apply map_length). rewrite LL in GL. fold (alive y) in GL. lia.
  Qed.
  Lemma alive_limit : alive y <= 1236.
  Proof.
    pose proof room_used as H. assert (0 <= ChainSpec.total (free_in m R)).
    { apply total_pos. intros (w & c) K. destruct egg_chain as (k & _ & _ & _ & RC). destruct (reach_good _ _ _ RC) as (A & F & G).
      assert (HF : In (w, c) (all_free (smem (set_mem (kst k) m)) (oat O 0))). { rewrite (all_free_one _ _ _ (c_eseg _ _ _ (sinv_cor _ _ _ S))). exact K. }
      rewrite (all_free_eq _ _ _ _ _ G) in HF. destruct (frees_16 _ _ _ _ _ _ (good_world _ _ _ _ _ G) HF) as (_ & Q & _). cbn [snd]. lia. }
    unfold EGG_MEM in *. lia.
  Qed.

  (** ** Without room no thread can start *)
  Lemma room_dec : egg_room e y O \/ ~ egg_room e y O.
  Proof.
    destruct (existsb (fun x => room (ehook e CHAIN_SIZE) CHAIN_SIZE <=? snd x) (free_in (ymem y) (ebuf e, EGG_MEM))) eqn:E.
    - left. apply existsb_exists in E as ((w & c) & H1 & H2). exists w, c. split; [exact H1|]. cbn [snd] in H2. lia.
    - right. intros (w & c & H1 & H2). assert (K : existsb (fun x => room (ehook e CHAIN_SIZE) CHAIN_SIZE <=? snd x) (free_in (ymem y) (ebuf e, EGG_MEM)) = true); [|congruence].
      apply existsb_exists. exists (w, c). split; [exact H1|]. cbn [snd]. lia.
  Qed.
  Lemma egg_ask k : chain y 0 = Some k -> cvalid e y O no_os 0 k (OAlloc (ehook e CHAIN_SIZE) CHAIN_SIZE None).
  Proof.
    intros Hk. pose proof (sinv_env _ _ _ S) as W. destruct egg_chain as (k' & Hk' & EG & _). rewrite Hk in Hk'. injection Hk' as <-.
    split; [exact Logic.I|]. split; [|split; [intros z K; congruence|intros _ q []]]. cbn [valid]. rewrite EG. destruct W as (_ & _ & _ & _ & _ & _ & WH).
    split; [unfold CHAIN_SIZE; lia|]. split; [destruct (WH CHAIN_SIZE) as [K|(kk & K1 & K2)]; [left; exact K|right; exists kk; split; [lia|exact K2]]|]. split; [|split; intros K; discriminate].
    assert (ehook e CHAIN_SIZE <= 2 ^ 19); [|change (2 ^ 19) with 524288 in *; change (2 ^ 63) with 9223372036854775808; unfold CHAIN_SIZE in *; lia].
    destruct (WH CHAIN_SIZE) as [-> |(kk & K1 & ->)]; [lia|apply Z.pow_le_mono_r; lia].
  Qed.
  Lemma egg_null k p y1 O1 c' s' : ~ egg_room e y O -> chain y 0 = Some k ->
    Called e y O 0 k (OAlloc (ehook e CHAIN_SIZE) CHAIN_SIZE None) p y1 O1 c' s' -> p = 0.
  Proof.
    intros NR Hk D. destruct egg_chain as (k' & Hk' & EG & _). rewrite Hk in Hk'. injection Hk' as <-.
    destruct (d_ask _ _ _ _ _ _ _ _ _ _ _ D (or_intror eq_refl)) as (-> & _). destruct (d_step _ _ _ _ _ _ _ _ _ _ _ D) as (fuel & mm & E & V & RR & _ & _ & EM). specialize (EM (or_intror eq_refl)). subst mm.
    destruct (Z.eq_dec p 0) as [K|K]; [exact K|exfalso]. destruct (alloc_info _ _ _ _ _ _ _ _ _ RR V E) as (_ & Q). destruct (Q K) as (_ & [(_ & w & c & J1 & J2)|(b & J & _)]).
    - apply NR. exists w, c. split; [|exact J2]. rewrite (all_free_one _ _ _ (c_eseg _ _ _ (sinv_cor _ _ _ S))) in J1. exact J1.
    - rewrite EG in J. discriminate.
  Qed.
  Lemma create_null t : ~ egg_room e y O -> exists f0, (forall f, (f0 <= f)%nat -> create f e t y = UB) /\ forall f, create f e t y = OutOfFuel \/ create f e t y = UB.
  Proof.
    intros NR. destruct egg_chain as (k & Hk & EG & _ & RC). destruct (runs_call e y O no_os 0%nat k _ S Hk (egg_ask k Hk)) as (f0 & (p & y1) & (O1 & c' & s' & D) & H1 & H2).
    assert (P0 : p = 0) by exact (egg_null k p y1 O1 c' s' NR Hk D).
    subst p. exists f0. split; [intros f Hf; exact (create_zero f e t y y1 (H1 f Hf))|]. intros f. destruct (H2 f) as [K|K]; [left; exact (create_fuel f e t y K)|right; exact (create_zero f e t y y1 K)].
  Qed.
End Egg.

Lemma stops e y O c t : sreach e y O -> ytls y t = None -> ~ egg_room e y O -> needs_chain c t ->
  exists f0, (forall f, (f0 <= f)%nat -> pexec f e c y = UB) /\ forall f, pexec f e c y = OutOfFuel \/ pexec f e c y = UB.
Proof.
  intros R T NR NC. pose proof (sinv_start _ _ _ (sreach_sinv _ _ _ R)) as S. destruct (create_null e (yset_tr y []) O S t NR) as (f0 & H1 & H2).
  assert (G : forall f x, create f e t (yset_tr y []) = x -> x = UB \/ x = OutOfFuel -> pexec f e c y = match x with UB => UB | _ => OutOfFuel end).
  { intros f x E K. assert (L : with_local f e t (yset_tr y []) = x) by (unfold with_local; cbn [yset_tr ytls]; rewrite T; exact E).
    destruct c as [t' n os|t' p|t' p n os|t' a b os|t' d n os|t' d n os|t' n os|t'|t' i|xx v]; cbn [needs_chain] in NC; try contradiction; unfold pexec.
    - subst t'. unfold p_malloc, p_alloc. rewrite L. destruct K as [-> | ->]; reflexivity.
    - subst t'. unfold p_free. rewrite L. destruct K as [-> | ->]; reflexivity.
    - destruct NC as (-> & NC). unfold p_realloc. destruct (Z.eqb_spec p 0) as [Ep|Np].
      + unfold p_malloc, p_alloc. rewrite L. destruct K as [-> | ->]; reflexivity.
      + destruct NC as [NC|NC]; [contradiction|]. subst n. rewrite Z.eqb_refl. unfold p_free. rewrite L. destruct K as [-> | ->]; reflexivity.
    - subst t'. unfold p_calloc, p_malloc, p_alloc. rewrite L. destruct K as [-> | ->]; reflexivity.
    - destruct NC as (-> & NC). unfold x_memalign. rewrite NC. unfold p_memalign, p_alloc. rewrite L. destruct K as [-> | ->]; reflexivity.
    - destruct NC as (-> & NC). rewrite NC. cbn [Z.eqb negb andb]. unfold p_memalign, p_alloc. rewrite L. destruct K as [-> | ->]; reflexivity.
    - subst t'. unfold x_memalign. change (is_pow2 4096) with true. cbv iota. unfold p_memalign, p_alloc. rewrite L. destruct K as [-> | ->]; reflexivity. }
  exists f0. split.
  - intros f Hf. exact (G f UB (H1 f Hf) (or_introl eq_refl)).
  - intros f. destruct (H2 f) as [K|K]; [left; exact (G f _ K (or_intror eq_refl))|right; exact (G f _ K (or_introl eq_refl))].
Qed.

(** ** Threads that start and end *)
Lemma open_free e y O t f er rp y1 : sreach e y O -> thread_ok e y O t -> pexec f e (PFree t 0) y = Ok (er, rp, y1) ->
  exists l k u0 u, Open e (yset_tr y []) O t l y1 (obs_after O (ytr y1)) k u0 u.
Proof.
  intros R T E. pose proof (sinv_start _ _ _ (sreach_sinv _ _ _ R)) as S. unfold pexec in E. apply unit_inv in E as (r & E & _ & _).
  destruct (runs_any _ _ _ _ (runs_free_none e (yset_tr y []) O t 0 S T (or_introl eq_refl)) E) as (O' & l & k & u0 & r0 & ev & H).
  pose proof (o_act _ _ _ _ _ _ _ _ _ _ H) as A. pose proof (a_tr _ _ _ _ _ _ _ _ A) as ET. cbn [yset_tr ytr] in ET. rewrite app_nil_r in ET. pose proof (a_obs _ _ _ _ _ _ _ _ A) as EO.
  rewrite ET, <- EO. eauto.
Qed.
Lemma quiet_exit e y O t i f er rp y1 : sreach e y O -> ytls y t = Some i -> pexec f e (PExit t) y = Ok (er, rp, y1) ->
  Quiet y O y1 (obs_after O (ytr y1)) /\ forall t', ytls y1 t' = zupd (ytls y) t (Some 0%nat) t'.
Proof.
  intros R T E. pose proof (sinv_start _ _ _ (sreach_sinv _ _ _ R)) as S. destruct (c_tls _ _ _ (sinv_cor _ _ _ S) t i T) as (k & Hk & _). unfold pexec in E. apply unit_inv in E as (r & E & _ & _).
  destruct (runs_any _ _ _ _ (runs_exit e (yset_tr y []) O t i k S T Hk) E) as (O' & u & ev & r0 & w & A & Q & TT & _).
  pose proof (a_tr _ _ _ _ _ _ _ _ A) as ET. change (ytr (exited (yset_tr y []) t i k)) with (@nil titem) in ET. rewrite app_nil_r in ET. pose proof (a_obs _ _ _ _ _ _ _ _ A) as EO.
  rewrite ET, <- EO. split; [exact Q|exact TT].
Qed.

Lemma start_tls fuel e m y : sys_init fuel e m = Ok y -> forall t, ytls y t = None.
Proof.
  intros E. unfold sys_init in E. apply rbind_inv in E as ((u & s) & _ & E). apply rbind_inv in E as ((r1 & y1) & E1 & E). apply rbind_inv in E as ((r2 & s2) & _ & E).
  apply rbind_inv in E as ((p & y2) & E2 & E). injection E as <-. cbn [ytls]. apply call_tr in E1 as (_ & _ & _ & _ & _ & E1). apply call_tr in E2 as (_ & _ & _ & _ & _ & E2). rewrite E2. cbn [yset_regs ytls]. rewrite E1.
  reflexivity.
Qed.
Lemma first_state e fuel m y : wf_env e -> sys_init fuel e m = Ok y -> sreach e y (start_obs e y) /\ all_over y (start_obs e y) /\
  (forall i k, i <> 0%nat -> chain y i = Some k -> segs (oat (start_obs e y) i) = []) /\ exists L, NoDup L /\ length L = 0%nat /\ forall i, In i L -> In i (standing y).
Proof.
  intros W E. pose proof (start_tls _ _ _ _ E) as T. pose proof (sreach_init e fuel m y W E) as R. split; [exact R|]. split; [|split; [|exists []; split; [constructor|]; split; [reflexivity|intros i []]]].
  - split; [intros t; left; exact (T t)|]. intros i b (_ & H1 & H2). destruct i as [|i].
    + cbn in H1. destruct H1 as [<-|[]]. apply H2. left. reflexivity.
    + cbn in H1. destruct i; destruct H1.
  - intros i k Ni _. destruct i as [|i]; [contradiction|]. cbn. destruct i; reflexivity.
Qed.

Lemma next_thread e n y O t f1 r1 y1 f2 r2 y2 : sreach e y O -> all_over y O -> (forall i k, i <> 0%nat -> chain y i = Some k -> segs (oat O i) = []) ->
  (exists L, NoDup L /\ length L = n /\ forall i, In i L -> In i (standing y)) -> ytls y t = None -> egg_room e y O ->
  pexec f1 e (PFree t 0) y = Ok (r1, y1) -> pexec f2 e (PExit t) y1 = Ok (r2, y2) ->
  sreach e y2 (obs_after (obs_after O (ytr y1)) (ytr y2)) /\ all_over y2 (obs_after (obs_after O (ytr y1)) (ytr y2)) /\
  (forall t', t' <> t -> ytls y2 t' = ytls y t') /\
  (forall i k, i <> 0%nat -> chain y2 i = Some k -> segs (oat (obs_after (obs_after O (ytr y1)) (ytr y2)) i) = []) /\
  exists L, NoDup L /\ length L = Datatypes.S n /\ forall i, In i L -> In i (standing y2).
Proof.
  intros R (A1 & A2) SG (L & L1 & L2 & L3) T ER E1 E2. destruct r1 as (er1 & rp1), r2 as (er2 & rp2).
  assert (TO : thread_ok e y O t) by (intros _; exact ER). assert (V1 : pvalid e y O (PFree t 0)) by (split; [exact TO|left; reflexivity]).
  pose proof (sreach_step e y O f1 (PFree t 0) (er1, rp1) y1 R V1 E1) as R1. set (O1 := obs_after O (ytr y1)) in *.
  pose proof (pexec_done _ _ _ _ _ _ _ _ (sreach_sinv _ _ _ R) V1 E1) as D1. fold O1 in D1. destruct (open_free e y O t f1 er1 rp1 y1 R TO E1) as (l & k & u0 & u & OP). fold O1 in OP.
  assert (TL : ytls y1 t = Some l) by (rewrite (o_tls _ _ _ _ _ _ _ _ _ _ OP); unfold zupd; rewrite Z.eqb_refl; reflexivity).
  assert (El : l = length (ych y) /\ l <> 0%nat).
  { destruct (o_entry _ _ _ _ _ _ _ _ _ _ OP) as [(K & _)|(_ & K1 & K2 & _)]; [cbn [yset_tr ytls] in K; congruence|]. cbn [yset_tr ych] in K1. auto. }
  destruct El as (El & Nl).
  assert (SG1 : forall i ki, i <> 0%nat -> chain y1 i = Some ki -> segs (oat O1 i) = []).
  { intros i ki Ni Hi. destruct (segs (oat O1 i)) as [|r rs] eqn:Es; [reflexivity|exfalso]. destruct (proj2 (o_quiet _ _ _ _ _ _ _ _ _ _ OP) i ki r Hi) as ((k0 & K0) & K1); [rewrite Es; left; reflexivity|].
    change (chain y i = Some k0) in K0. rewrite (SG i k0 Ni K0) in K1. destruct K1. }
  assert (UP1 : forall i, In i (standing y) -> In i (standing y1)).
  { intros i Hi. apply standing_in in Hi as (Ni & ki & Hi). apply standing_in. split; [exact Ni|]. destruct (dn_live _ _ _ _ _ _ _ D1 i ki Hi) as [(k' & K & _)|(_ & _ & K & _)]; [eauto|]. destruct (K (SG i ki Ni Hi)). }
  assert (V2 : pvalid e y1 O1 (PExit t)) by exact Logic.I.
  pose proof (sreach_step e y1 O1 f2 (PExit t) (er2, rp2) y2 R1 V2 E2) as R2. set (O2 := obs_after O1 (ytr y2)) in *.
  pose proof (pexec_done _ _ _ _ _ _ _ _ (sreach_sinv _ _ _ R1) V2 E2) as D2. fold O2 in D2. destruct (quiet_exit e y1 O1 t l f2 er2 rp2 y2 R1 TL E2) as (Q2 & T2). fold O2 in Q2.
  assert (UP2 : forall i, In i (standing y1) -> In i (standing y2)).
  { intros i Hi. apply standing_in in Hi as (Ni & ki & Hi). apply standing_in. split; [exact Ni|]. destruct (dn_live _ _ _ _ _ _ _ D2 i ki Hi) as [(k' & K & _)|(_ & _ & K & _)]; [eauto|]. destruct (K (SG1 i ki Ni Hi)). }
  assert (OT : forall t', t' <> t -> ytls y2 t' = ytls y t').
  { intros t' N. rewrite T2. unfold zupd. destruct (Z.eqb_spec t' t) as [K|_]; [contradiction|]. rewrite (o_tls _ _ _ _ _ _ _ _ _ _ OP). unfold zupd. destruct (Z.eqb_spec t' t) as [K|_]; [contradiction|reflexivity]. }
  split; [exact R2|]. split; [split|split; [exact OT|split]].
  - intros t'. destruct (Z.eq_dec t' t) as [->|N]; [right; rewrite T2; unfold zupd; rewrite Z.eqb_refl; reflexivity|]. rewrite (OT t' N). exact (A1 t').
  - intros i b H. destruct (dn_new _ _ _ _ _ _ _ D2 i b H) as [(K & _)|(_ & K)]; [|discriminate]. destruct (dn_new _ _ _ _ _ _ _ D1 i b K) as [(K' & _)|(_ & K')]; [exact (A2 i b K')|discriminate].
  - intros i ki Ni Hi. destruct (segs (oat O2 i)) as [|r rs] eqn:Es; [reflexivity|exfalso]. destruct (proj2 Q2 i ki r Hi) as ((k0 & K0) & K1); [rewrite Es; left; reflexivity|]. rewrite (SG1 i k0 Ni K0) in K1. destruct K1.
  - exists (l :: L). split; [|split].
    + constructor; [|exact L1]. intros K. specialize (L3 l K). apply standing_in in L3 as (_ & k0 & K0). apply chain_lt in K0. lia.
    + cbn [length]. rewrite L2. reflexivity.
    + intros i [<-|Hi]; [|exact (UP2 i (UP1 i (L3 i Hi)))]. apply UP2. apply standing_in. split; [exact Nl|]. exists k. exact (o_ch _ _ _ _ _ _ _ _ _ _ OP).
Qed.
Lemma run_next e y O t : sreach e y O -> egg_room e y O -> exists f1 r1 y1 f2 r2 y2, pexec f1 e (PFree t 0) y = Ok (r1, y1) /\ pexec f2 e (PExit t) y1 = Ok (r2, y2).
Proof.
  intros R ER. assert (V1 : pvalid e y O (PFree t 0)) by (split; [intros _; exact ER|left; reflexivity]). destruct (calls_safe e y O _ R V1) as ((f1 & ((er1 & rp1) & y1) & H1) & _). specialize (H1 f1 (Nat.le_refl _)).
  pose proof (sreach_step e y O f1 (PFree t 0) (er1, rp1) y1 R V1 H1) as R1. destruct (calls_safe e y1 _ (PExit t) R1 Logic.I) as ((f2 & ((er2 & rp2) & y2) & H2) & _). specialize (H2 f2 (Nat.le_refl _)).
  exists f1, (er1, rp1), y1, f2, (er2, rp2), y2. auto.
Qed.
(** Any such history keeps everything in place. *)
Lemma come_reach e n y O : come_go e n y O -> sreach e y O /\ all_over y O /\ (forall i k, i <> 0%nat -> chain y i = Some k -> segs (oat O i) = []) /\
  exists L, NoDup L /\ length L = n /\ forall i, In i L -> In i (standing y).
Proof.
  induction 1 as [fuel m y W E|n y O t f1 r1 y1 f2 r2 y2 _ (R & A & SG & LL) T ER E1 E2].
  - exact (first_state _ _ _ _ W E).
  - assert (K : sreach e y2 (obs_after (obs_after O (ytr y1)) (ytr y2)) /\ all_over y2 (obs_after (obs_after O (ytr y1)) (ytr y2)) /\
      (forall t', t' <> t -> ytls y2 t' = ytls y t') /\
      (forall i k, i <> 0%nat -> chain y2 i = Some k -> segs (oat (obs_after (obs_after O (ytr y1)) (ytr y2)) i) = []) /\
      exists L, NoDup L /\ length L = Datatypes.S n /\ forall i, In i L -> In i (standing y2)).
    { exact (next_thread e n y O t f1 r1 y1 f2 r2 y2 R A SG LL T ER E1 E2). }
    destruct K as (K1 & K2 & _ & K3 & K4). auto.
Qed.

Lemma come_limit e n y O : come_go e n y O -> Z.of_nat n <= alive y <= 1236.
Proof.
  intros H. destruct (come_reach _ _ _ _ H) as (R & _ & _ & L & L1 & L2 & L3). pose proof (alive_limit e y O (sreach_sinv _ _ _ R)) as A. pose proof (NoDup_incl_length L1 L3) as K. unfold alive in *. lia.
Qed.
Lemma come_others e n y O : come_go e n y O -> exists l, forall t, ~ In t l -> ytls y t = None.
Proof.
  induction 1 as [fuel m y W E|n y O t f1 r1 y1 f2 r2 y2 CG (l & IH) T ER E1 E2].
  - exists []. intros t _. exact (start_tls _ _ _ _ E t).
  - exists (t :: l). intros t' N. destruct (come_reach _ _ _ _ CG) as (R & A & SG & LL). destruct (next_thread e n y O t f1 r1 y1 f2 r2 y2 R A SG LL T ER E1 E2) as (_ & _ & OT & _).
    rewrite OT; [apply IH; intros K; apply N; right; exact K|intros ->; apply N; left; reflexivity].
Qed.
Lemma fresh_thread (l : list Z) : exists t, ~ In t l.
Proof.
  exists (1 + fold_right Z.max 0 l). intros H. assert (K : forall l x, In x l -> x <= fold_right Z.max 0 l).
  { induction l0 as [|a l0 IH]; intros x []; cbn [fold_right]; [subst; lia|specialize (IH x H0); lia]. }
  specialize (K l _ H). lia.
Qed.
Lemma come_go_stop e (m : mem) : wf_env e -> exists n y O, come_go e n y O /\ ~ egg_room e y O.
Proof.
  intros W. assert (G : forall k, (exists y O, come_go e k y O) \/ exists n y O, come_go e n y O /\ ~ egg_room e y O).
  { induction k as [|k [(y & O & H)|IH]]; [|destruct (room_dec e y O) as [ER|NR]|right; exact IH].
    - left. destruct (start_safe e m W) as ((f0 & y & H) & _). exists y, (start_obs e y). exact (cg_start e f0 m y W (H f0 (Nat.le_refl _))).
    - left. destruct (come_others _ _ _ _ H) as (l & Hl). destruct (fresh_thread l) as (t & Ht). destruct (run_next e y O t (proj1 (come_reach _ _ _ _ H)) ER) as (f1 & r1 & y1 & f2 & r2 & y2 & E1 & E2).
      eexists. eexists. exact (cg_next e k y O t f1 r1 y1 f2 r2 y2 H (Hl t Ht) ER E1 E2).
    - right. exists k, y, O. auto. }
  destruct (G 1237%nat) as [(y & O & H)|H]; [|exact H]. pose proof (come_limit _ _ _ _ H). lia.
Qed.
(** Without any holder and any running thread, no thread can start any more. *)
Lemma come_go_end e : wf_env e -> exists n y O, come_go e n y O /\ Z.of_nat n <= 1236 /\ sreach e y O /\ all_over y O /\ (exists t, ytls y t = None) /\
  forall t c, ytls y t = None -> needs_chain c t -> exists f0, (forall f, (f0 <= f)%nat -> pexec f e c y = UB) /\ forall f, pexec f e c y = OutOfFuel \/ pexec f e c y = UB.
Proof.
  intros W. destruct (come_go_stop e (fun _ => 0) W) as (n & y & O & H & NR). exists n, y, O. destruct (come_reach _ _ _ _ H) as (R & A & _). pose proof (come_limit _ _ _ _ H) as L.
  split; [exact H|]. split; [lia|]. split; [exact R|]. split; [exact A|]. split.
  - destruct (come_others _ _ _ _ H) as (l & Hl). destruct (fresh_thread l) as (t & Ht). exists t. exact (Hl t Ht).
  - intros t c T NC. exact (stops e y O c t R T NR NC).
Qed.

(** ** Few threads always fit *)
Lemma frees_count : forall l a, noadj l -> (length (frees_from a l) <= length (busy_from a l) + (if firstfr l then 1 else 0))%nat.
Proof.
  induction l as [|[c k] l IH]; intros a N; [cbn; lia|]. destruct N as (N1 & N2). specialize (IH (a + c) N2). cbn [frees_from busy_from firstfr]. rewrite !app_length. destruct k; cbn [isfr length snd] in *.
  - rewrite (N1 eq_refl) in IH. cbn. lia.
  - cbn. destruct (firstfr l); lia.
  - cbn. destruct (firstfr l); lia.
Qed.
Lemma free_count g s o r : reach g s o -> cmerge g = true -> In r (segs o) -> (length (free_in (smem s) r) <= length (occ_in (smem s) r) + 1)%nat.
Proof.
  intros R M H. destruct (reach_good _ _ _ R) as (A & F & G). pose proof (good_world _ _ _ _ _ G) as W. pose proof (gd_core _ _ _ _ _ G) as C. destruct r as (x & z).
  destruct (good_seg _ _ _ _ _ _ _ G H) as (sg & HS & -> & ->). fold (segr sg). rewrite (free_in_seg _ _ _ _ W HS), (occ_in_seg _ _ _ _ W HS).
  pose proof (frees_count (gchunks sg) (gbase sg + 32) (co_merge _ _ _ _ _ C M _ HS)) as K. destruct (firstfr (gchunks sg)); lia.
Qed.

Lemma filter_le {A} (f : A -> bool) : forall l, (length (filter f l) <= length l)%nat.
Proof. induction l as [|x l IH]; [reflexivity|]. cbn [filter length]. destruct (f x); cbn [length]; lia. Qed.

Section Few.
  Variables (e : env) (y : sys) (O : list obs).
  Hypothesis RS : sreach e y O.
  Hypothesis NH : forall b, ~ holds y O 0 b.
  Hypothesis AL : forall b, In b (live (oat O 0)) -> bd b <= 1.
  Hypothesis FA : 2 <= efac e.
  Let S : SInv e y O := sreach_sinv _ _ _ RS.

  Lemma egg_pend : pend (oat O 0) = [].
  Proof. destruct (egg_chain e y O S) as (k & Hk & _ & SH & _). exact (shared_clear _ _ _ RS 0%nat k Hk SH). Qed.
  Lemma egg_all b : In b (blocks (oat O 0)) -> In b (live (oat O 0)) /\ reserved y (bp b).
  Proof.
    intros H. unfold blocks in H. rewrite egg_pend, app_nil_r in H. split; [exact H|]. destruct (egg_chain e y O S) as (k & Hk & _).
    assert (D : In (bp b) (ylight y :: map (pool_of y) (standing y)) \/ ~ In (bp b) (ylight y :: map (pool_of y) (standing y))) by (destruct (in_dec Z.eq_dec (bp b) (ylight y :: map (pool_of y) (standing y))); auto).
    destruct D as [[D|D]|D]; [left; symmetry; exact D| |].
    - apply in_map_iff in D as (i & D1 & D2). apply standing_in in D2 as (Ni & ki & Hi). right. exists i, ki. split; [exact Ni|]. split; [exact Hi|]. unfold pool_of in D1. rewrite Hi in D1. exact D1.
    - exfalso. apply (NH b). split; [eauto|]. split; [exact H|]. intros [K|(i & ki & Ni & Hi & K)]; apply D; [left; symmetry; exact K|right]. apply in_map_iff. exists i. split; [unfold pool_of; rewrite Hi; exact K|].
      apply standing_in. eauto.
  Qed.
  Lemma egg_blocks : (length (blocks (oat O 0)) <= 1 + length (standing y))%nat.
  Proof.
    destruct (egg_chain e y O S) as (k & Hk & _ & _ & RC). pose proof (live_nodup _ _ _ RC) as ND. assert (EB : blocks (oat O 0) = live (oat O 0)) by (unfold blocks; rewrite egg_pend; apply app_nil_r).
    assert (IN : incl (map bp (live (oat O 0))) (ylight y :: map (pool_of y) (standing y))).
    { intros p Hp. apply in_map_iff in Hp as (b & <- & Hb). destruct (egg_all b) as (_ & [K|(i & ki & Ni & Hi & K)]); [rewrite EB; exact Hb|left; symmetry; exact K|right].
      apply in_map_iff. exists i. split; [unfold pool_of; rewrite Hi; exact K|apply standing_in; eauto]. }
    pose proof (NoDup_incl_length ND IN) as K. rewrite EB. rewrite map_length in K. cbn [length] in K. rewrite map_length in K. exact K.
  Qed.
  Lemma egg_small b : In b (blocks (oat O 0)) -> snd (occ (ymem y) (bp b)) <= 3376.
  Proof.
    intros H. destruct (egg_all b H) as (HL & HR). destruct (egg_chain e y O S) as (k & Hk & EG & _ & RC). pose proof (sinv_cor _ _ _ S) as Co. pose proof (live_nodup _ _ _ RC) as ND.
    destruct (egg_block e y O Co b k Hk H) as (u & U & U1 & U2 & _).
    assert (BN : bn b <= 1680).
    { destruct HR as [K|(i & ki & Ni & Hi & K)].
      - destruct (c_light _ _ _ Co) as (d & Q). rewrite (nodup_bp _ ND b _ HL Q K). cbn [bn]. unfold LIGHT_SIZE. lia.
      - destruct (c_struct _ _ _ Co i ki Hi Ni) as (d & Q). rewrite (nodup_bp _ ND b _ HL Q (eq_sym K)). cbn [bn]. unfold CHAIN_SIZE. lia. }
    destruct (block_occ _ _ _ RC b u H U) as (w & c & x & z & Q1 & _ & _ & _ & _ & Q3 & _ & Q4 & _). cbn [smem set_mem] in Q1. rewrite Q1. cbn [snd]. specialize (Q4 (AL b HL)).
    assert (UU : u <= 3360).
    { destruct (live_bound _ _ _ RC b u HL U) as [(B & _)|(B1 & _ & B2 & B3)].
      - specialize (B (AL b HL) (or_introl eq_refl)). clear - B BN. lia.
      - cbn [egg_cfg cfactor] in *. clear - B1 B2 B3 BN FA. nia. }
    clear - UU Q3 Q4. lia.
  Qed.
  Lemma few_room : ehook e CHAIN_SIZE <= 1 -> alive y <= 413 -> egg_room e y O.
  Proof.
    intros HK HA. destruct (room_dec e y O) as [K|NR]; [exact K|exfalso]. destruct (egg_whole e y O S) as (T & P). destruct (egg_chain e y O S) as (k & Hk & EG & _ & RC).
    set (R := (ebuf e, EGG_MEM)) in *. pose proof (c_eseg _ _ _ (sinv_cor _ _ _ S)) as ES.
    assert (RM : room (ehook e CHAIN_SIZE) CHAIN_SIZE = 1696). { unfold room, asked, CHAIN_SIZE. destruct (Z.ltb_spec 1 (ehook e 1680)) as [K|K]; [unfold CHAIN_SIZE in HK; lia|reflexivity]. }
    assert (FC : (length (free_in (ymem y) R) <= length (occ_in (ymem y) R) + 1)%nat) by (apply (free_count _ _ _ R RC eq_refl); rewrite ES; left; reflexivity).
    assert (FT : ChainSpec.total (free_in (ymem y) R) <= 1680 * Z.of_nat (length (free_in (ymem y) R))).
    { rewrite <- (map_id (free_in (ymem y) R)) at 1. apply total_le. intros (w & c) Hw. cbn [snd]. destruct (reach_good _ _ _ RC) as (A & F & G).
      assert (HF : In (w, c) (all_free (smem (set_mem (kst k) (ymem y))) (oat O 0))) by (rewrite (all_free_one _ _ _ ES); exact Hw).
      rewrite (all_free_eq _ _ _ _ _ G) in HF. destruct (frees_16 _ _ _ _ _ _ (good_world _ _ _ _ _ G) HF) as (Q & _ & _).
      assert (C : c < 1696) by (destruct (Z_lt_dec c 1696) as [L|L]; [exact L|exfalso; apply NR; exists w, c; split; [exact Hw|rewrite RM; clear - L; lia]]). clear - Q C. lia. }
    assert (LO : (length (occ_in (ymem y) R) <= 1 + length (standing y))%nat).
    { rewrite (Permutation_length P), map_length. pose proof egg_blocks as EB. pose proof (filter_le (ChainSpec.inside R) (blocks (oat O 0))) as FL. lia. }
    assert (OT : ChainSpec.total (map (fun b => occ (ymem y) (bp b)) (filter (ChainSpec.inside R) (blocks (oat O 0)))) <= 3376 * Z.of_nat (length (occ_in (ymem y) R))).
    { rewrite (Permutation_length P), map_length. apply total_le. intros b Hb. apply filter_In in Hb as (Hb & _). exact (egg_small b Hb). }
    unfold alive in HA. unfold EGG_MEM in T. clear - T FC FT LO OT HA. lia.
  Qed.
End Few.

Lemma come_left e n y O : come_go e n y O -> sreach e y O /\ all_over y O /\ Z.of_nat n <= alive y.
Proof. intros H. destruct (come_reach _ _ _ _ H) as (R & A & _). split; [exact R|]. split; [exact A|]. exact (proj1 (come_limit _ _ _ _ H)). Qed.
