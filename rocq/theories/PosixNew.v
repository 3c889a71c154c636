(** Creation of the chain of a thread. *)
From Verif Require Import Word Res Mem SizeClassModel ChainModel Wp ChainInv ChainSpec ChainStep ChainRefill ChainEv ChainProps ChainCap ChainSrc ChainPut ChainMore ChainCore ChainFuel ChainTrace ChainWalk
  RegionModel RegionSpec RegionProofs LightModel LightSpec LightProofs PosixModel PosixSpec PosixChain PosixInv PosixSrc PosixLocal PosixMid PosixCall PosixRun PosixEff PosixFun PosixPub.
From Coq Require Import ZArith List Bool Lia.
Import ListNotations.
Open Scope Z_scope.

(** A chain without segments joins. *)
Definition joins (y : sys) (k : chn) (t : Z) : sys := yset_tls (yset_ch y (ych y ++ [Some k])) t (Some (length (ych y))).
Section Join.
  Variables (e : env) (y : sys) (O : list obs) (k : chn) (t : Z) (d : Z).
  Hypothesis S : SInv e y O.
  Hypothesis Kg : kg k = thread_cfg e (cpool (kg k)).
  Hypothesis Ks : ksh k = false.
  Hypothesis Kd : kdes k = false.
  Hypothesis Kr : reach (kg k) (set_mem (kst k) (ymem y)) obs0.
  Hypothesis Ke : sevs (kst k) = [].
  Hypothesis Kb : In (mkBlk (cpool (kg k)) CHAIN_SIZE d) (live (oat O 0)).
  Hypothesis Kn : ~ reserved y (cpool (kg k)).
  Let n := length (ych y).
  Let Co : Cor e y O := sinv_cor e y O S.

  Lemma jn_new : chain (joins y k t) n = Some k.
  Proof. unfold chain, joins, n. cbn. rewrite app_nth2, Nat.sub_diag by lia. reflexivity. Qed.
  Lemma jn_old j : j <> n -> chain (joins y k t) j = chain y j.
  Proof.
    intros H. unfold chain, joins. cbn. destruct (Nat.lt_ge_cases j n) as [L|L]; [rewrite app_nth1 by exact L; reflexivity|]. unfold n in *.
    rewrite !nth_overflow; [reflexivity|lia|rewrite app_length; cbn; lia].
  Qed.
  Lemma jn_cases j kj : chain (joins y k t) j = Some kj -> (j = n /\ kj = k) \/ (j <> n /\ chain y j = Some kj).
  Proof. intros H. destruct (Nat.eq_dec j n) as [->|N]; [left; rewrite jn_new in H; injection H as <-; auto|right; rewrite (jn_old j N) in H; auto]. Qed.
  Lemma jn_fresh j kj : chain y j = Some kj -> j <> n.
  Proof. intros H ->. apply chain_lt in H. unfold n in H. lia. Qed.
  Lemma jn_oat j : oat (O ++ [obs0]) j = oat O j.
  Proof.
    unfold oat. destruct (Nat.lt_ge_cases j (length O)) as [L|L]; [apply app_nth1; exact L|]. rewrite app_nth2 by exact L. rewrite (nth_overflow O) by exact L.
    destruct (j - length O)%nat as [|[|q]]; reflexivity.
  Qed.
  Lemma jn_oatn : oat O n = obs0.
  Proof. apply (c_dead _ _ _ Co). unfold chain, n. apply nth_overflow. lia. Qed.
  Lemma jn_n0 : n <> 0%nat.
  Proof. destruct (c_egg _ _ _ Co) as (k0 & K & _). apply chain_lt in K. unfold n. lia. Qed.
  Lemma jn_pool : cpool (kg k) <> eegg e.
  Proof.
    destruct (c_egg _ _ _ Co) as (k0 & K & _). destruct (egg_block e y O Co _ k0 K (in_or_app _ _ _ (or_introl Kb))) as (u & U1 & U2 & U3 & U4 & U5). cbn [bp bn] in *.
    destruct (sinv_env _ _ _ S) as (W1 & _ & _ & _ & _ & W2 & _). unfold ChainSpec.apart, CHAIN_SIZE in *. cbn [fst snd] in *. lia.
  Qed.
  Lemma jn_reserved p : reserved (joins y k t) p <-> reserved y p \/ p = cpool (kg k).
  Proof.
    split.
    - intros [H|(j & kj & H1 & H2 & H3)]; [left; left; exact H|]. destruct (jn_cases j kj H2) as [(_ & ->)|(_ & H)]; [right; auto|left; right; exists j, kj; auto].
    - intros [[H|(j & kj & H1 & H2 & H3)]| ->]; [left; exact H| |right; exists n, k; split; [exact jn_n0|split; [exact jn_new|reflexivity]]].
      right. exists j, kj. split; [exact H1|]. split; [|exact H3]. rewrite (jn_old j (jn_fresh j kj H2)). exact H2.
  Qed.
  Lemma jn_sinv : SInv e (joins y k t) (O ++ [obs0]).
  Proof.
    pose proof S as S0. destruct S0 as (out & C & L & M). exists out, C, L. pose proof M as M0. destruct M. constructor; try assumption.
    - destruct m_cor. constructor.
      + unfold joins. cbn. rewrite !app_length, c_len. reflexivity.
      + destruct c_egg as (k0 & K1 & K). exists k0. rewrite (jn_old 0%nat (jn_fresh 0%nat k0 K1)). auto.
      + rewrite jn_oat. exact c_eseg.
      + intros j kj H N. destruct (jn_cases j kj H) as [(-> & ->)|(_ & H1)]; [split; [exact Kg|congruence]|exact (c_cfg j kj H1 N)].
      + intros j kj H. rewrite jn_oat. destruct (jn_cases j kj H) as [(-> & ->)|(_ & H1)]; [rewrite jn_oatn; exact Kr|exact (c_reach j kj H1)].
      + intros j kj H. destruct (jn_cases j kj H) as [(-> & ->)|(_ & H1)]; [exact Ke|exact (c_ev j kj H1)].
      + intros j kj H N. rewrite jn_oat. destruct (jn_cases j kj H) as [(-> & ->)|(_ & H1)]; [exists d; exact Kb|exact (c_struct j kj H1 N)].
      + rewrite jn_oat. exact c_light.
      + assert (NP : forall j kj, chain y j = Some kj -> cpool (kg kj) <> cpool (kg k)).
        { intros j kj H E. destruct (Nat.eq_dec j 0) as [->|N]; [|apply Kn; right; exists j, kj; auto].
          destruct c_egg as (k0 & K1 & K2 & _). rewrite H in K1. injection K1 as <-. rewrite K2 in E. cbn in E. exact (jn_pool (eq_sym E)). }
        intros j1 j2 k1 k2 H1 H2 E. destruct (jn_cases j1 k1 H1) as [(-> & ->)|(_ & A1)], (jn_cases j2 k2 H2) as [(-> & ->)|(_ & A2)].
        * reflexivity.
        * exfalso. exact (NP j2 k2 A2 (eq_sym E)).
        * exfalso. exact (NP j1 k1 A1 E).
        * exact (c_inj j1 j2 k1 k2 A1 A2 E).
      + intros j H. rewrite jn_oat. destruct (Nat.eq_dec j n) as [->|N]; [exact jn_oatn|]. rewrite (jn_old j N) in H. exact (c_dead j H).
      + intros j1 j2 k1 k2 r1 r2 N1 N2 N3 H1 H2 H3 H4. rewrite jn_oat in H3, H4. destruct (jn_cases j1 k1 H1) as [(-> & ->)|(_ & A1)]; [rewrite jn_oatn in H3; contradiction|].
        destruct (jn_cases j2 k2 H2) as [(-> & ->)|(_ & A2)]; [rewrite jn_oatn in H4; contradiction|]. exact (c_segs j1 j2 k1 k2 r1 r2 N1 N2 N3 A1 A2 H3 H4).
      + intros j kj r N H Hr. rewrite jn_oat in Hr. destruct (jn_cases j kj H) as [(-> & ->)|(_ & A)]; [rewrite jn_oatn in Hr; contradiction|]. exact (c_away j kj r N A Hr).
      + intros t' j H. unfold joins in H. cbn in H. unfold zupd in H. destruct (t' =? t).
        * injection H as <-. exists k. split; [exact jn_new|auto].
        * destruct (c_tls t' j H) as (kj & K1 & K2). exists kj. rewrite (jn_old j (jn_fresh j kj K1)). auto.
      + intros t1 t2 j H1 H2 N. unfold joins in H1, H2. cbn in H1, H2. unfold zupd in H1, H2. destruct (Z.eqb_spec t1 t) as [E1|E1], (Z.eqb_spec t2 t) as [E2|E2].
        * congruence.
        * exfalso. injection H1 as <-. destruct (c_tls t2 _ H2) as (kj & K1 & _). exact (jn_fresh _ _ K1 eq_refl).
        * exfalso. injection H2 as <-. destruct (c_tls t1 _ H1) as (kj & K1 & _). exact (jn_fresh _ _ K1 eq_refl).
        * exact (c_uniq t1 t2 j H1 H2 N).
    - intros x. rewrite (m_out x). split; (intros [(j & kj & K1 & K2 & K3)|K]; [left; exists j, kj|right; exact K]).
      + rewrite jn_oat, (jn_old j (jn_fresh j kj K2)). auto.
      + rewrite jn_oat in K3. destruct (jn_cases j kj K2) as [(-> & ->)|(_ & A)]; [rewrite jn_oatn in K3; contradiction|auto].
    - intros x. rewrite (m_L x). split; (intros [(j & kj & K1 & K2 & K3)|K]; [left; exists j, kj|right; exact K]).
      + rewrite jn_oat, (jn_old j (jn_fresh j kj K1)). auto.
      + rewrite jn_oat in K2. destruct (jn_cases j kj K1) as [(-> & ->)|(_ & A)]; [rewrite jn_oatn in K2; contradiction|auto].
    - intros x [[]|[]].
  Qed.
  Lemma jn_eff : Eff e y O (joins y k t) (O ++ [obs0]) (atT (cpool (kg k))) noN.
  Proof.
    constructor; [exact jn_sinv|reflexivity| |].
    - intros j b u ((kj & Hj) & Hl & Hr) HT (kj' & Hj' & HU). split; [|split; [|reflexivity]].
      + split; [exists kj; rewrite (jn_old j (jn_fresh j kj Hj)); exact Hj|]. rewrite jn_oat. split; [exact Hl|]. rewrite jn_reserved. intros [K|K]; [exact (Hr K)|exact (HT K)].
      + exists kj'. rewrite (jn_old j (jn_fresh j kj' Hj')). auto.
    - intros j b ((kj & Hj) & Hl & Hr). rewrite jn_oat in Hl. rewrite jn_reserved in Hr. left. split; [|intros K; apply Hr; right; exact K].
      destruct (jn_cases j kj Hj) as [(-> & ->)|(_ & A)]; [rewrite jn_oatn in Hl; contradiction|]. split; [exists kj; exact A|]. split; [exact Hl|]. intros K. apply Hr. left. exact K.
  Qed.
  Lemma jn_quiet : Quiet y O (joins y k t) (O ++ [obs0]).
  Proof.
    split; [intros x H; exact H|]. intros j kj r H Hr. rewrite jn_oat in Hr. destruct (jn_cases j kj H) as [(-> & ->)|(_ & A)]; [rewrite jn_oatn in Hr; contradiction|]. eauto.
  Qed.
  Lemma jn_life : Life y O (joins y k t) (O ++ [obs0]) [TNew n].
  Proof.
    constructor.
    - unfold joins. cbn. rewrite app_length. lia.
    - intros i Hi H. assert (N : i <> n) by (unfold n; lia). rewrite (jn_old i N). split; [exact H|]. intros x [<-|[]]. congruence.
    - intros i ki H. left. exists ki. rewrite (jn_old i (jn_fresh i ki H)), jn_oat. split; [exact H|]. split; [reflexivity|]. split; [reflexivity|]. split; [reflexivity|].
      split; [tauto|]. intros [K|[]]. discriminate.
  Qed.
End Join.

Lemma egg_alloc_ok e y O k c f r s' : SInv e y O -> chain y 0 = Some k -> egg_room e y O ->
  c = OAlloc (ehook e CHAIN_SIZE) CHAIN_SIZE None -> step f (kg k) c (set_mem (kst k) (ymem y)) = Ok (r, s') -> valid (kg k) (set_mem (kst k) (ymem y)) (oat O 0) c -> r <> 0.
Proof.
  intros S Hk (w & cz & H1 & H2) -> E V. pose proof (sinv_cor _ _ _ S) as Co. pose proof (c_reach _ _ _ Co 0%nat k Hk) as R.
  destruct (kg_cases _ _ _ _ _ Co Hk) as (_ & _ & _ & EG). assert (NS : csrc (kg k) = false) by (rewrite (EG eq_refl); reflexivity).
  apply (alloc_succeeds _ _ _ _ _ _ _ _ _ R V E); [unfold CHAIN_SIZE; lia|rewrite NS; intros (K & _); discriminate|].
  exists (ebuf e), EGG_MEM, w, cz. rewrite (c_eseg _ _ _ Co). split; [left; reflexivity|]. split; [exact H1|]. split; [exact H2|].
  destruct (reach_good _ _ _ R) as (A & F & G). assert (HF : In (w, cz) (all_free (smem (set_mem (kst k) (ymem y))) (oat O 0))).
  { unfold all_free. rewrite (c_eseg _ _ _ Co). cbn [flat_map]. rewrite app_nil_r. exact H1. }
  rewrite (all_free_eq _ _ _ _ _ G) in HF. destruct (frees_16 _ _ _ _ _ _ (good_world _ _ _ _ _ G) HF) as (_ & _ & sg & J1 & J2 & J3).
  assert (HS : In (segr sg) (segs (oat O 0))) by (rewrite (gd_segs _ _ _ _ _ G); apply in_map; exact J1).
  rewrite (c_eseg _ _ _ Co) in HS. destruct HS as [HS|[]]. unfold segr in HS. injection HS as K1 K2. unfold EGG_MEM in *. lia.
Qed.

Lemma init_evs g m s : wf_cfg g -> base_init g (init_state g m) = Ok (tt, s) -> sevs s = [].
Proof. intros W E. pose proof (init_good g m W) as H. unfold wp in H. rewrite E in H. apply H. Qed.
Definition new_trace (e : env) (i : nat) (p : Z) : list titem := [TNew i; TCall 0 (OAlloc (ehook e CHAIN_SIZE) CHAIN_SIZE None) p []].
Lemma runs_create e y O t : SInv e y O -> egg_room e y O ->
  Runs (fun f => create f e t y) (fun '(i, y') => exists O' p k, Act e y O y' O' noT noN (new_trace e i p) /\ Quiet y O y' O' /\ i = length (ych y) /\
    ytls y' = zupd (ytls y) t (Some i) /\ chain y' i = Some k /\ kdes k = false).
Proof.
  intros S ER. pose proof (sinv_cor _ _ _ S) as Co. pose proof (sinv_env _ _ _ S) as W. destruct (c_egg _ _ _ Co) as (k0 & Hk0 & EG & _).
  set (c := OAlloc (ehook e CHAIN_SIZE) CHAIN_SIZE None).
  assert (CV : cvalid e y O no_os 0 k0 c).
  { split; [exact Logic.I|]. split; [|split; [intros z K; congruence|intros _ q []]]. cbn [c valid]. rewrite EG. destruct W as (_ & _ & _ & _ & _ & _ & WH).
    split; [unfold CHAIN_SIZE; lia|]. split; [destruct (WH CHAIN_SIZE) as [K|(kk & K1 & K2)]; [left; exact K|right; exists kk; split; [lia|exact K2]]|]. split; [|split; intros K; discriminate].
    assert (ehook e CHAIN_SIZE <= 2 ^ 19); [|change (2 ^ 19) with 524288 in *; change (2 ^ 63) with 9223372036854775808; unfold CHAIN_SIZE in *; lia].
    destruct (WH CHAIN_SIZE) as [-> |(kk & K1 & ->)]; [lia|apply Z.pow_le_mono_r; lia]. }
  unfold create. eapply runs_bind; [exact (runs_call e y O no_os 0%nat k0 c S Hk0 CV)|]. intros (p & y1) (O1 & c' & s' & D).
  destruct (d_ask _ _ _ _ _ _ _ _ _ _ _ D (or_intror eq_refl)) as (-> & DI). destruct (d_step _ _ _ _ _ _ _ _ _ _ _ D) as (fuel & m & E & V & R & AG & _ & EM).
  rewrite (EM (or_intror eq_refl)) in *. assert (Hp : p <> 0) by exact (egg_alloc_ok e y O k0 c fuel p s' S Hk0 ER eq_refl E V).
  destruct (Z.eqb_spec p 0) as [K|_]; [contradiction|].
  assert (EV : sevs s' = []). { unfold step in E. assert (NS : csrc (kg k0) = false) by (rewrite EG; reflexivity). rewrite (exec_nosrc _ _ _ _ _ _ NS E). reflexivity. }
  pose proof (d_inv _ _ _ _ _ _ _ _ _ _ _ D) as S1. pose proof (sinv_cor _ _ _ S1) as Co1. pose proof (d_ch _ _ _ _ _ _ _ _ _ _ _ D) as Hk1.
  pose proof (called_eff _ _ _ _ _ _ _ _ _ _ _ S Hk0 D ltac:(discriminate)) as E1.
  pose proof (called_quiet _ _ _ _ _ _ _ _ _ _ _ S Hk0 D (or_intror eq_refl) Logic.I) as Q1.
  assert (L1 : Life y O y1 O1 [TCall 0 c p (sevs s')]).
  { apply (chain_alive _ _ _ _ _ _ _ _ _ _ _ S Hk0 D Logic.I); [discriminate|congruence|]. unfold last_gone. rewrite EV. cbn [existsb]. rewrite andb_false_r. reflexivity. }
  set (d := ehook e CHAIN_SIZE) in *. set (b := mkBlk p CHAIN_SIZE d).
  assert (LV : live (oat O1 0) = b :: live (oat O 0)).
  { rewrite (cd_oati _ _ _ _ _ _ _ _ _ _ _ S Hk0 D). unfold c. cbn [next live]. destruct (Z.eqb_spec p 0); [contradiction|reflexivity]. }
  assert (HB : In b (live (oat O1 0))) by (rewrite LV; left; reflexivity).
  assert (FR : forall b', In b' (live (oat O 0)) -> bp b' <> p).
  { intros b' Hb' E'. pose proof (live_nodup _ _ _ (c_reach _ _ _ Co1 0%nat _ Hk1)) as NDp. rewrite LV in NDp. cbn [map bp b] in NDp. inversion NDp as [|? ? NI _]. apply NI. rewrite <- E'. apply in_map. exact Hb'. }
  assert (NRS : ~ reserved y1 p).
  { rewrite (cd_reserved _ _ _ _ _ _ _ _ _ _ _ Hk0 D). intros [K|(j & kj & K1 & K2 & K3)].
    - destruct (c_light _ _ _ Co) as (d' & Hd'). apply (FR _ Hd'). symmetry. exact K.
    - destruct (c_struct _ _ _ Co j kj K2 K1) as (d' & Hd'). apply (FR _ Hd'). exact K3. }
  assert (HH : holds y1 O1 0 b) by (split; [eauto|split; [exact HB|exact NRS]]).
  destruct (held_size e y1 O1 0%nat b S1 HH) as (u & U1 & U2 & U3 & U4 & U5). cbn [b bp bn] in U1, U2, U3, U4, U5.
  assert (WC : wf_cfg (thread_cfg e p)). { split; cbn [thread_cfg cpool]; [lia|]. change (2 ^ 47) with 140737488355328 in U5. change (2 ^ 56) with 72057594037927936. unfold POOL_SIZE, CHAIN_SIZE in *. lia. }
  destruct (init_runs (thread_cfg e p) (ymem y1) WC) as (s & EI & RI & FI). cbn [thread_cfg cpool] in FI. rewrite EI. cbn [rbind].
  eapply runs_ok; [intros f; reflexivity|]. set (kn := mkChn (thread_cfg e p) false false s).
  destruct (act_store e y1 O1 (smem s) 0%nat b u S1 HH U1) as (A2 & HH2 & U2' & Q2).
  { intros x Hx. apply FI. cbn [b bp] in Hx. unfold POOL_SIZE, CHAIN_SIZE in *. lia. }
  set (y2 := yset_mem y1 (smem s)) in *. pose proof (f_inv _ _ _ _ _ _ _ (a_eff _ _ _ _ _ _ _ _ A2)) as S2.
  assert (KR : reach (kg kn) (set_mem (kst kn) (ymem y2)) obs0).
  { change (reach (thread_cfg e p) (set_mem s (smem s)) obs0). replace (set_mem s (smem s)) with s by (destruct s; reflexivity). exact RI. }
  assert (KE : sevs (kst kn) = []) by exact (init_evs _ _ _ WC EI).
  assert (KB : In (mkBlk (cpool (kg kn)) CHAIN_SIZE d) (live (oat O1 0))) by exact HB.
  pose proof (jn_eff e y2 O1 kn t d S2 eq_refl eq_refl eq_refl KR KE KB NRS) as E3.
  pose proof (jn_quiet e y2 O1 kn t S2) as Q3. pose proof (jn_life y2 O1 kn t) as L3. pose proof (jn_new y2 kn t) as JN.
  change (length (ych y2)) with (length (ych y1)) in L3, JN. rewrite (d_len _ _ _ _ _ _ _ _ _ _ _ D) in L3, JN.
  change (yset_ch y2 (ych y1 ++ [Some kn])) with (yset_ch y2 (ych y2 ++ [Some kn])).
  rewrite (d_len _ _ _ _ _ _ _ _ _ _ _ D).
  set (y3 := joins y2 kn t) in *.
  assert (EY : yset_tls (yset_ch y2 (ych y2 ++ [Some kn])) t (Some (length (ych y))) = y3).
  { unfold y3, joins. change (ych y2) with (ych y1). rewrite (d_len _ _ _ _ _ _ _ _ _ _ _ D). reflexivity. }
  rewrite EY. set (y4 := log y3 (TNew (length (ych y)))).
  assert (S4 : SInv e y4 (O1 ++ [obs0])) by (apply (sinv_same e y3); try reflexivity; exact (f_inv _ _ _ _ _ _ _ E3)).
  exists (O1 ++ [obs0]), p, kn. split; [|split; [|split; [reflexivity|split; [|split; [exact JN|reflexivity]]]]].
  - constructor.
    + assert (E12 := eff_trans _ _ _ _ _ _ _ _ _ _ _ E1 (a_eff _ _ _ _ _ _ _ _ A2)). assert (E123 := eff_trans _ _ _ _ _ _ _ _ _ _ _ E12 E3).
      assert (E34 : Eff e y3 (O1 ++ [obs0]) y4 (O1 ++ [obs0]) noT noN) by (apply (eff_same e y3); try reflexivity; [exact (f_inv _ _ _ _ _ _ _ E3)|exact S4]).
      apply (eff_sub _ _ _ _ _ _ _ _ _ (eff_then _ _ _ _ _ _ _ _ _ E123 E34)).
      * intros q [].
      * intros j b' H K. assert (KP : bp b' = p) by (destruct K as [[[]|K]|K]; exact K). clear K.
        destruct (held_size e y O j b' S H) as (u' & U' & _). destruct (f_keep _ _ _ _ _ _ _ E1 j b' u' H (fun K => K) U') as (H1 & _).
        destruct (held_unique e y1 O1 j 0%nat b' b S1 H1 HH KP) as (-> & ->). exact (FR b (proj1 (proj2 H)) eq_refl).
      * intros j b' _ [(K & KT)|K]; [|exact K]. apply KT. cbn [thread_cfg cpool kn kg]. destruct K as [((_ & K) & _)|(_ & K)]; [destruct K as (_ & ->); reflexivity|subst b'; reflexivity].
    + change (TNew (length (ych y)) :: ytr y1 = new_trace e (length (ych y)) p ++ ytr y). rewrite (d_tr _ _ _ _ _ _ _ _ _ _ _ D), EV. reflexivity.
    + cbn [new_trace obs_after fold_right obs1]. rewrite (d_obs _ _ _ _ _ _ _ _ _ _ _ D), EV. reflexivity.
    + rewrite EV in L1. apply (life_trans y O y1 O1 y4 (O1 ++ [obs0]) _ [TNew (length (ych y))] L1). destruct L3 as [L31 L32 L33]. constructor; [exact L31|exact L32|exact L33].
  - exact (quiet_trans _ _ _ _ _ _ Q1 (quiet_trans _ _ _ _ _ _ Q2 Q3)).
  - change (ytls y4) with (zupd (ytls y1) t (Some (length (ych y1)))). rewrite (d_tls _ _ _ _ _ _ _ _ _ _ _ D), (d_len _ _ _ _ _ _ _ _ _ _ _ D). reflexivity.
Qed.
