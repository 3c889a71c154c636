(** realloc, the exit of a thread and the choice of a chain. *)
From Verif Require Import Word Res Mem SizeClassModel ChainModel Wp ChainInv ChainSpec ChainStep ChainRefill ChainEv ChainProps ChainCap ChainSrc ChainPut ChainMore ChainCore ChainFuel ChainTrace ChainWalk
  RegionModel RegionSpec RegionProofs LightModel LightSpec LightProofs PosixModel PosixSpec PosixChain PosixInv PosixSrc PosixLocal PosixMid PosixCall PosixRun PosixEff PosixFun PosixPub PosixNew PosixApi PosixCopy.
From Coq Require Import ZArith List Bool Lia.
Import ListNotations.
Open Scope Z_scope.

(** ** Inside one chain *)
Lemma moved_in e y O i k c h p n gr r y' O' s' m d : SInv e y O -> chain y i = Some k -> Called e y O i k c r y' O' (ORealloc h p n gr) s' ->
  holds y O i (mkBlk p m d) -> n <> 0 -> r <> 0 ->
  exists d', holds y' O' i (mkBlk r n d') /\ (r <> p -> forall j b, holds y O j b -> bp b <> r) /\ forall u x, size_of y i p u -> 0 <= x < Z.min u n -> ymem y' (r + x) = ymem y (p + x).
Proof.
  intros S Hk D H Hn Hr. pose proof (sinv_cor _ _ _ S) as Co. pose proof (d_inv _ _ _ _ _ _ _ _ _ _ _ D) as S'. pose proof (sinv_cor _ _ _ S') as Co'. pose proof (d_ch _ _ _ _ _ _ _ _ _ _ _ D) as Hk'.
  destruct (held_size _ _ _ _ _ S H) as (u & U & U1 & U2 & U3 & _). cbn [bp bn] in *. assert (NP : forall h0 n0 gr0, ORealloc h p n gr <> ORealloc h0 0 n0 gr0) by (intros ? ? ? K; injection K as _ K _ _; lia).
  destruct (d_step _ _ _ _ _ _ _ _ _ _ _ D) as (fuel & mm & E & V & R & AG & _ & _).
  destruct (reach_rng _ _ _ (c_reach _ _ _ Co i k Hk)) as (RG & (WD & _)). pose proof (agree_rng e y O i k mm Co Hk AG) as AR.
  assert (UM : forall u, size_of y i p u -> usable (set_mem (kst k) mm) p u).
  { intros u0 (k0 & K1 & K2). rewrite Hk in K1. injection K1 as <-. pose proof (usable_local _ mm _ _ WD AR K2) as K. rewrite set_mem_twice in K. exact K. }
  destruct (realloc_keeps _ _ _ _ _ _ _ _ _ _ _ _ u R V E (proj1 (proj2 H)) Hn Hr (UM u U)) as ((d' & u' & K1 & K2 & K3) & K4 & K5 & K6).
  rewrite <- (cd_oati _ _ _ _ _ _ _ _ _ _ _ S Hk D) in K1.
  assert (HN : holds y' O' i (mkBlk r n d')).
  { apply (new_held _ _ _ _ _ _ _ _ _ _ _ _ S Hk D NP K1). pose proof K1 as K1'. rewrite (cd_oati _ _ _ _ _ _ _ _ _ _ _ S Hk D) in K1'. apply next_new in K1' as [(J1 & J2)|J]; [|exact J|exact NP].
    exfalso. cbn [target bp] in J2. apply (proj2 (K6 J2)). apply in_map_iff. exists (mkBlk r n d'). split; [reflexivity|]. apply in_or_app. left. exact J1. }
  exists d'. split; [exact HN|]. split.
  { intros J2 j b HB EB. destruct (Nat.eq_dec j i) as [-> |Nj].
    - apply (proj2 (K6 J2)). rewrite <- EB. apply in_map. apply in_or_app. left. exact (proj1 (proj2 HB)).
    - destruct (held_size _ _ _ _ _ S HB) as (ub & UB & _). assert (NT : ~ target (ORealloc h p n gr) (bp b)) by (cbn [target]; congruence).
      pose proof (proj1 (f_keep _ _ _ _ _ _ _ (called_eff _ _ _ _ _ _ _ _ _ _ _ S Hk D NP) j b ub HB NT UB)) as HB'. destruct (held_unique _ _ _ _ _ _ _ S' HB' HN EB) as (K & _). contradiction. }
  intros u0 x U0 Hx. rewrite (size_eq _ _ _ _ _ U0 U) in Hx.
  destruct (held_size _ _ _ _ _ S' HN) as (v & V0 & V1 & _). cbn [bp bn] in *.
  rewrite (d_mem _ _ _ _ _ _ _ _ _ _ _ D) by (apply (held_in_chains e y' O' i (mkBlk r n d') v (r + x) S' HN V0); cbn [bp]; lia).
  rewrite K5 by lia. cbn [smem set_mem]. apply AG. apply (held_in_chains e y O i (mkBlk p m d) u (p + x) S H U). cbn [bp]. lia.
Qed.

Lemma runs_rechain e y O os i k p n m d l t : SInv e y O -> chain y i = Some k -> holds y O i (mkBlk p m d) -> d <= 1 -> 0 < efac e -> 0 < n -> ytls y t = Some l -> ask_ok e y (ehook e n) n os ->
  Runs (fun f => chain_call f e os i (ORealloc (ehook e n) p n None) y) (fun '(r, y') => exists O' tr, Moved e y O t p n r i y' O' tr).
Proof.
  intros S Hk H Hd HF Hn HT HA. pose proof (sinv_cor _ _ _ S) as Co. destruct (held_size _ _ _ _ _ S H) as (w & W & _ & _ & Hp & _). cbn [bp] in Hp.
  assert (CF : cfactor (kg k) = efac e).
  { destruct (Nat.eq_dec i 0) as [Ei|Ni]; [destruct (kg_cases _ _ _ _ _ Co Hk) as (_ & _ & _ & EG); rewrite (EG Ei); reflexivity|destruct (c_cfg _ _ _ Co i k Hk Ni) as (K & _); rewrite K; reflexivity]. }
  assert (CV : cvalid e y O os i k (ORealloc (ehook e n) p n None)).
  { split; [exact Logic.I|]. split; [split; [right; exists m, d; split; [exact (proj1 (proj2 H))|exact Hd]|split; [exact (ask_request _ _ _ _ _ _ _ HA)|rewrite CF; exact HF]]|]. split.
    - intros z _ K. cbn [asks] in K. destruct (n =? 0); [discriminate|]. injection K as <-. apply HA.
    - intros _ q ->. exact (proj2 (proj2 H)). }
  assert (NP : forall h n0 gr, ORealloc (ehook e n) p n None <> ORealloc h 0 n0 gr) by (intros ? ? ? K; injection K as _ K _ _; lia).
  eapply runs_mono; [apply (runs_chain e y O os i k _ S Hk CV NP); discriminate|]. intros (r & y') (O' & c' & y1 & O1 & s' & v & C).
  pose proof (h_call _ _ _ _ _ _ _ _ _ _ _ _ _ _ _ C) as D. pose proof (d_inv _ _ _ _ _ _ _ _ _ _ _ D) as S1.
  assert (EC : exists gr, c' = ORealloc (ehook e n) p n gr) by (destruct (d_op _ _ _ _ _ _ _ _ _ _ _ D) as [->|(_ & b & ->)]; eexists; reflexivity). destruct EC as (gr & ->).
  pose proof (h_act _ _ _ _ _ _ _ _ _ _ _ _ _ _ _ C) as A. cbn [target new_blk] in A.
  assert (KEEP : r <> 0 -> exists d', (r <> p -> forall j b, holds y O j b -> bp b <> r) /\ holds y' O' i (mkBlk r n d') /\ forall u x, size_of y i p u -> 0 <= x < Z.min u n -> ymem y' (r + x) = ymem y (p + x)).
  { intros Nr. destruct (moved_in _ _ _ _ _ _ _ _ _ _ _ _ _ _ m d S Hk D H ltac:(lia) Nr) as (d' & K1 & K0 & K2). exists d'. split; [exact K0|]. destruct (held_size _ _ _ _ _ S1 K1) as (v1 & V1 & V2 & _). cbn [bp bn] in *.
    destruct (f_keep _ _ _ _ _ _ _ (h_eff _ _ _ _ _ _ _ _ _ _ _ _ _ _ _ C) _ _ _ K1 (fun K => K) V1) as (J1 & _ & J3). cbn [bp] in *. split; [exact J1|]. intros u x U Hx. rewrite J3 by lia. exact (K2 u x U Hx). }
  exists O'. eexists. constructor.
  - exists l. split; [|split; [|split; [|congruence]]].
    + apply (act_sub _ _ _ _ _ _ _ _ _ _ A); [intros q K; exact K|intros j b _ K; exact K|]. intros j b _ (-> & K1 & K2). split; [left; reflexivity|]. split; [exact K1|].
      destruct K2 as [-> |(-> & m0 & d0 & _ & ->)]; eauto.
    + intros t'. rewrite (h_tls _ _ _ _ _ _ _ _ _ _ _ _ _ _ _ C). rewrite zupd_same by exact HT. reflexivity.
    + intros Er. left. destruct (Nat.eq_dec i 0) as [K|K]; [exact K|]. exfalso. apply (d_null _ _ _ _ _ _ _ _ _ _ _ D K); [|exact Er]. cbn [asks]. destruct (Z.eqb_spec n 0); [lia|discriminate].
  - intros Nr. destruct (KEEP Nr) as (d' & _ & K & _). eauto.
  - intros Nr. destruct (KEEP Nr) as (d' & K & _). exact K.
  - intros Nr u x U Hx. destruct (KEEP Nr) as (d' & _ & _ & K). exact (K u x U Hx).
Qed.

Lemma moved_open e y O t p n r i l y1 O1 k u0 u y' O' tr b : SInv e y O -> Open e y O t l y1 O1 k u0 u -> holds y O i b -> bp b = p ->
  Moved e y1 O1 t p n r i y' O' tr -> Moved e y O t p n r i y' O' (tr ++ u).
Proof.
  intros S H HB <- M. pose proof (o_act _ _ _ _ _ _ _ _ _ _ H) as A. destruct (held_size _ _ _ _ _ S HB) as (w & W & _).
  destruct (f_keep _ _ _ _ _ _ _ (a_eff _ _ _ _ _ _ _ _ A) _ _ _ HB (fun K => K) W) as (_ & W1 & B1). constructor.
  - destruct (mv_act _ _ _ _ _ _ _ _ _ _ _ M) as (l' & M1 & M2 & M3 & M4). exists l'. split; [exact (act_seq _ _ _ _ _ _ _ _ _ _ _ A M1)|].
    split; [|split; [exact M3|intros K; pose proof (M4 K) as K'; rewrite (o_tls _ _ _ _ _ _ _ _ _ _ H) in K'; unfold zupd in K'; rewrite Z.eqb_refl in K'; injection K' as ->; destruct (o_entry _ _ _ _ _ _ _ _ _ _ H) as [(K' & _)|(_ & _ & K' & _)]; [exact K'|contradiction]]].
    intros t'. rewrite M2. unfold zupd. destruct (t' =? t) eqn:E; [reflexivity|]. rewrite (o_tls _ _ _ _ _ _ _ _ _ _ H). unfold zupd. rewrite E. reflexivity.
  - exact (mv_held _ _ _ _ _ _ _ _ _ _ _ M).
  - intros Nr Np j b' HJ. apply (mv_fresh _ _ _ _ _ _ _ _ _ _ _ M Nr Np j). exact (act_holds _ _ _ _ _ _ _ _ _ _ S A HJ (fun K => K)).
  - intros Nr v x V Hx. rewrite (size_eq _ _ _ _ _ V W) in Hx. rewrite (mv_data _ _ _ _ _ _ _ _ _ _ _ M Nr w x W1 Hx). apply B1. lia.
Qed.
Lemma moved_look e y O t p n r i y1 y' O' tr b : SInv e y O -> Act e y O y1 O noT noN [] -> ytls y1 = ytls y -> holds y O i b -> bp b = p ->
  Moved e y1 O t p n r i y' O' tr -> Moved e y O t p n r i y' O' tr.
Proof.
  intros S A ET HB <- M. destruct (held_size _ _ _ _ _ S HB) as (w & W & _). destruct (f_keep _ _ _ _ _ _ _ (a_eff _ _ _ _ _ _ _ _ A) _ _ _ HB (fun K => K) W) as (_ & W1 & B1). constructor.
  - destruct (mv_act _ _ _ _ _ _ _ _ _ _ _ M) as (l' & M1 & M2 & M3 & M4). exists l'. split; [pose proof (act_seq _ _ _ _ _ _ _ _ _ _ _ A M1) as K; rewrite app_nil_r in K; exact K|]. split; [|split; [exact M3|rewrite <- ET; exact M4]].
    intros t'. rewrite M2, ET. reflexivity.
  - exact (mv_held _ _ _ _ _ _ _ _ _ _ _ M).
  - intros Nr Np j b' HJ. apply (mv_fresh _ _ _ _ _ _ _ _ _ _ _ M Nr Np j). exact (act_holds _ _ _ _ _ _ _ _ _ _ S A HJ (fun K => K)).
  - intros Nr v x V Hx. rewrite (size_eq _ _ _ _ _ V W) in Hx. rewrite (mv_data _ _ _ _ _ _ _ _ _ _ _ M Nr w x W1 Hx). apply B1. lia.
Qed.
Lemma runs_realloc e y O os t p n i m d : SInv e y O -> thread_ok e y O t -> 0 < efac e -> holds y O i (mkBlk p m d) -> d <= 1 -> 0 < n -> ask_ok e y (ehook e n) n os ->
  Runs (fun f => p_realloc f e os t p n y) (fun '(r, y') => exists O' tr, Moved e y O t p n r i y' O' tr).
Proof.
  intros S T HF H Hd Hn HA. unfold p_realloc. destruct (held_size _ _ _ _ _ S H) as (w & W & _ & _ & Hp & _). cbn [bp] in Hp.
  destruct (Z.eqb_spec p 0) as [K|_]; [lia|]. destruct (Z.eqb_spec n 0) as [K|_]; [lia|].
  eapply runs_bind; [exact (runs_local e y O t S T)|]. intros (l & y1) (O1 & k0 & u0 & H0). pose proof (open_inv _ _ _ _ _ _ _ _ _ _ H0) as S1.
  pose proof (act_holds _ _ _ _ _ _ _ _ _ _ S (o_act _ _ _ _ _ _ _ _ _ _ H0) H (fun K => K)) as H1.
  destruct (look_held _ _ _ _ _ S1 H1) as (rb & y2 & E & A2 & Q2 & Y2 & T2 & E0 & EF). cbn [bp] in E. rewrite E. cbn [rbind]. rewrite E0, EF. cbn [rbind].
  pose proof (act_inv _ _ _ _ _ _ _ _ A2) as S2. pose proof (act_holds _ _ _ _ _ _ _ _ _ _ S1 A2 H1 (fun K => K)) as H2.
  assert (HA2 : ask_ok e y2 (ehook e n) n os).
  { destruct HA as (G1 & G2 & G3 & G4 & G5). split; [exact G1|]. split; [exact G2|]. split; [exact G3|]. split; [exact G4|]. apply (quiet_os _ _ _ _ _ _ _ Q2). apply (quiet_os _ _ _ _ _ _ _ (o_quiet _ _ _ _ _ _ _ _ _ _ H0)). exact G5. }
  assert (TL : ytls y2 t = Some l) by (rewrite T2, (o_tls _ _ _ _ _ _ _ _ _ _ H0); unfold zupd; rewrite Z.eqb_refl; reflexivity).
  destruct H2 as ((k2 & Hk2) & H2').
  assert (FIN : forall r y', (exists O' tr, Moved e y2 O1 t p n r i y' O' tr) -> exists O' tr, Moved e y O t p n r i y' O' tr).
  { intros r y' (O' & tr & M). exists O', (tr ++ u0). apply (moved_open e y O t p n r i l y1 O1 k0 u0 u0 y' O' tr _ S H0 H eq_refl). exact (moved_look e y1 O1 t p n r i y2 y' O' tr _ S1 A2 T2 H1 eq_refl M). }
  destruct (Nat.eqb i l || is_shared y2 i).
  - eapply runs_mono; [apply (runs_rechain e y2 O1 os i k2 p n m d l t S2 Hk2); try assumption; split; [eauto|exact H2']|]. intros (r & y') K. exact (FIN r y' K).
  - eapply runs_mono; [apply (runs_inter e y2 O1 os t i p n m d l S2); try assumption; split; [eauto|exact H2']|]. intros (r & y') K. exact (FIN r y' K).
Qed.

(** ** Threads that change their chain, and exit *)
Lemma sinv_tls e y O t i k : SInv e y O -> chain y i = Some k -> i = 0%nat \/ kdes k = false /\ (forall t', t' <> t -> ytls y t' <> Some i) -> SInv e (yset_tls y t (Some i)) O.
Proof.
  intros (out & C & L & M) Hk HI. exists out, C, L. destruct M. constructor; try assumption.
  destruct m_cor. constructor; try assumption.
  - intros t' j H. cbn [yset_tls ytls] in H. unfold zupd in H. destruct (t' =? t); [|exact (c_tls t' j H)]. injection H as <-. exists k. split; [exact Hk|]. intros N. destruct HI as [HI|(HI & _)]; [contradiction|exact HI].
  - intros t1 t2 j H1 H2 N. cbn [yset_tls ytls] in H1, H2. unfold zupd in H1, H2. destruct (Z.eqb_spec t1 t) as [E1|E1], (Z.eqb_spec t2 t) as [E2|E2]; [congruence| | |exact (c_uniq t1 t2 j H1 H2 N)].
    + injection H1 as <-. destruct HI as [HI|(_ & HI)]; [contradiction|]. exfalso. exact (HI t2 E2 H2).
    + injection H2 as <-. destruct HI as [HI|(_ & HI)]; [contradiction|]. exfalso. exact (HI t1 E1 H1).
Qed.
Definition mark (y : sys) (i : nat) (k : chn) : sys := put_chain y i (Some (mkChn (kg k) true true (kst k))).
Section Mark.
  Variables (e : env) (y : sys) (O : list obs) (i : nat) (k : chn).
  Hypothesis S : SInv e y O.
  Hypothesis Hk : chain y i = Some k.
  Hypothesis Ht : i <> 0%nat -> forall t, ytls y t <> Some i.
  Lemma mk_same : chain (mark y i k) i = Some (mkChn (kg k) true true (kst k)).
  Proof. exact (chain_put_same y i k _ Hk). Qed.
  Lemma mk_other j : j <> i -> chain (mark y i k) j = chain y j.
  Proof. intros N. apply chain_put_other. congruence. Qed.
  Lemma mk_back j kj : chain (mark y i k) j = Some kj -> exists k0, chain y j = Some k0 /\ kg kj = kg k0 /\ kst kj = kst k0 /\ ((j = i /\ ksh kj = true /\ kdes kj = true) \/ (j <> i /\ kj = k0)).
  Proof.
    intros H. destruct (Nat.eq_dec j i) as [->|N].
    - rewrite mk_same in H. injection H as <-. exists k. split; [exact Hk|]. split; [reflexivity|]. split; [reflexivity|]. left. auto.
    - rewrite (mk_other j N) in H. exists kj. auto 6.
  Qed.
  Lemma mk_fwd j kj : chain y j = Some kj -> exists k1, chain (mark y i k) j = Some k1 /\ kg k1 = kg kj /\ kst k1 = kst kj.
  Proof.
    intros H. destruct (Nat.eq_dec j i) as [->|N].
    - rewrite Hk in H. injection H as <-. rewrite mk_same. eexists. split; [reflexivity|]. auto.
    - rewrite (mk_other j N). eauto.
  Qed.
  Lemma mk_sinv : SInv e (mark y i k) O.
  Proof.
    pose proof S as S0. destruct S0 as (out & C & L & M). exists out, C, L. destruct M. constructor; try assumption.
    - destruct m_cor. constructor.
      + unfold mark, put_chain. cbn. rewrite set_nth_len. exact c_len.
      + destruct c_egg as (k0 & K1 & K2 & K3). destruct (Nat.eq_dec 0 i) as [E|N].
        * rewrite E, Hk in K1. injection K1 as <-. rewrite E. eexists. split; [exact mk_same|]. auto.
        * exists k0. rewrite (mk_other 0%nat N). auto.
      + exact c_eseg.
      + intros j kj H N. destruct (mk_back j kj H) as (k0 & K1 & K2 & K3 & K4). destruct (c_cfg j k0 K1 N) as (J1 & J2). rewrite K2. split; [exact J1|]. destruct K4 as [(_ & -> & ->)|(_ & ->)]; [reflexivity|exact J2].
      + intros j kj H. destruct (mk_back j kj H) as (k0 & K1 & K2 & K3 & _). rewrite K2, K3. exact (c_reach j k0 K1).
      + intros j kj H. destruct (mk_back j kj H) as (k0 & K1 & K2 & K3 & _). rewrite K3. exact (c_ev j k0 K1).
      + intros j kj H N. destruct (mk_back j kj H) as (k0 & K1 & K2 & _). rewrite K2. exact (c_struct j k0 K1 N).
      + exact c_light.
      + intros j1 j2 k1 k2 H1 H2. destruct (mk_back j1 k1 H1) as (k3 & K1 & K2 & _). destruct (mk_back j2 k2 H2) as (k4 & K3 & K4 & _). rewrite K2, K4. exact (c_inj j1 j2 k3 k4 K1 K3).
      + intros j H. destruct (Nat.eq_dec j i) as [->|N]; [rewrite mk_same in H; discriminate|]. rewrite (mk_other j N) in H. exact (c_dead j H).
      + intros j1 j2 k1 k2 r1 r2 N1 N2 N3 H1 H2. destruct (mk_back j1 k1 H1) as (k3 & K1 & _). destruct (mk_back j2 k2 H2) as (k4 & K3 & _). exact (c_segs j1 j2 k3 k4 r1 r2 N1 N2 N3 K1 K3).
      + intros j kj r N H. destruct (mk_back j kj H) as (k0 & K1 & _). exact (c_away j k0 r N K1).
      + intros t j H. destruct (c_tls t j H) as (kj & K1 & K2). destruct (Nat.eq_dec j i) as [->|N].
        * eexists. split; [exact mk_same|]. intros N0. exfalso. exact (Ht N0 t H).
        * exists kj. rewrite (mk_other j N). auto.
      + exact c_uniq.
    - intros x. rewrite (m_out x). split; (intros [(j & kj & K1 & K2 & K3)|K]; [left|right; exact K]).
      + destruct (mk_fwd j kj K2) as (k1 & J & _). exists j, k1. auto.
      + destruct (mk_back j kj K2) as (k1 & J & _). exists j, k1. auto.
    - intros x. rewrite (m_L x). split; (intros [(j & kj & K1 & K2 & K3)|K]; [left|right; exact K]).
      + destruct (mk_fwd j kj K1) as (k1 & J & J2 & _). exists j, k1. rewrite J2. auto.
      + destruct (mk_back j kj K1) as (k1 & J & J2 & _). exists j, k1. rewrite <- J2. auto.
    - intros x [[]|[]].
  Qed.
  Lemma mk_reserved p : reserved (mark y i k) p <-> reserved y p.
  Proof.
    split; (intros [H|(j & kj & H1 & H2 & H3)]; [left; exact H|right]).
    - destruct (mk_back j kj H2) as (k1 & J & J2 & _). exists j, k1. rewrite <- J2. auto.
    - destruct (mk_fwd j kj H2) as (k1 & J & J2 & _). exists j, k1. rewrite J2. auto.
  Qed.
  Lemma mk_eff : Eff e y O (mark y i k) O noT noN.
  Proof.
    constructor; [exact mk_sinv|reflexivity| |].
    - intros j b u ((kj & Hj) & Hl & Hr) _ (kj' & Hj' & HU). split; [|split; [|reflexivity]].
      + split; [destruct (mk_fwd j kj Hj) as (k1 & J & _); eauto|]. split; [exact Hl|]. rewrite mk_reserved. exact Hr.
      + destruct (mk_fwd j kj' Hj') as (k1 & J & _ & J2). exists k1. rewrite J2. auto.
    - intros j b ((kj & Hj) & Hl & Hr). left. split; [|intros []]. split; [destruct (mk_back j kj Hj) as (k1 & J & _); eauto|]. split; [exact Hl|]. rewrite mk_reserved in Hr. exact Hr.
  Qed.
End Mark.

(** The state after the mark: the chain of the thread is marked and the thread is left with the first chain. *)
Definition exited (y : sys) (t : Z) (i : nat) (k : chn) : sys := mark (yset_tls y t (Some 0%nat)) i k.
Lemma exited_ok e y O t i k : SInv e y O -> ytls y t = Some i -> chain y i = Some k -> Eff e y O (exited y t i k) O noT noN.
Proof.
  intros S HT Hk. pose proof (sinv_cor _ _ _ S) as Co. destruct (c_egg _ _ _ Co) as (k0 & K0 & _).
  pose proof (sinv_tls e y O t 0 k0 S K0 (or_introl eq_refl)) as S1. assert (E1 : Eff e y O (yset_tls y t (Some 0%nat)) O noT noN) by (apply (eff_same e y); try reflexivity; assumption).
  apply (eff_seq _ _ _ _ _ _ _ _ _ E1). apply mk_eff; [exact S1|exact Hk|]. intros N t' H. cbn [yset_tls ytls] in H. unfold zupd in H. destruct (Z.eqb_spec t' t) as [E|E]; [injection H as H; congruence|].
  exact (E (c_uniq _ _ _ Co t' t i H HT N)).
Qed.
Lemma runs_exit e y O t i k : SInv e y O -> ytls y t = Some i -> chain y i = Some k ->
  Runs (fun f => p_exit f e t y) (fun '(r, y') => exists O' u evs r0 w, Act e (exited y t i k) O y' O' noT noN (u ++ [TCall i OPurge r0 evs]) /\ Quiet y O y' O' /\
    (forall t', ytls y' t' = zupd (ytls y) t (Some 0%nat) t') /\ after i (mkChn (kg k) true true (kst k)) w u).
Proof.
  intros S HT Hk. unfold p_exit. rewrite HT, Hk. pose proof (exited_ok e y O t i k S HT Hk) as E1. pose proof (f_inv _ _ _ _ _ _ _ E1) as S1.
  assert (Hk1 : chain (exited y t i k) i = Some (mkChn (kg k) true true (kst k))) by (apply mk_same; exact Hk).
  eapply runs_mono; [apply (runs_chain e (exited y t i k) O no_os i _ OPurge S1 Hk1 (purge_valid e _ O i _)); discriminate|].
  intros (r & y') (O' & c' & y2 & O2 & s' & v & C). destruct (d_ask _ _ _ _ _ _ _ _ _ _ _ (h_call _ _ _ _ _ _ _ _ _ _ _ _ _ _ _ C) (or_introl eq_refl)) as (-> & _).
  pose proof (h_act _ _ _ _ _ _ _ _ _ _ _ _ _ _ _ C) as A. cbn [target new_blk] in A. exists O', v, (sevs s'), r. eexists. split; [|split; [|split; [|exact (h_after _ _ _ _ _ _ _ _ _ _ _ _ _ _ _ C)]]].
  - apply (act_sub _ _ _ _ _ _ _ _ _ _ A); [intros q []|intros j b _ []|intros j b _ (_ & [])].
  - apply (quiet_trans _ _ (exited y t i k) O); [|exact (h_quiet _ _ _ _ _ _ _ _ _ _ _ _ _ _ _ C (or_introl eq_refl))]. split; [intros x H; exact H|].
    intros j kj rg Hj Hr. split; [|exact Hr]. unfold exited in Hj. apply mk_back in Hj as (k1 & J & _); [eauto|exact Hk].
  - intros t'. rewrite (h_tls _ _ _ _ _ _ _ _ _ _ _ _ _ _ _ C). reflexivity.
Qed.
