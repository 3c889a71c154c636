(** The public functions: they return, keep the invariant and change only the blocks they are about. *)
From Verif Require Import Word Res Mem SizeClassModel ChainModel Wp ChainInv ChainSpec ChainStep ChainRefill ChainEv ChainProps ChainCap ChainSrc ChainPut ChainMore ChainCore ChainFuel ChainTrace ChainWalk
  RegionModel RegionSpec RegionProofs LightModel LightSpec LightProofs PosixModel PosixSpec PosixChain PosixInv PosixSrc PosixLocal PosixMid PosixCall PosixRun PosixEff PosixFun PosixPub PosixNew.
From Coq Require Import ZArith List Bool Lia.
Import ListNotations.
Open Scope Z_scope.

(** ** The chain of the thread *)
(** [u0]: the creation of the chain if the thread had none. *)
Definition entry (e : env) (y : sys) (t : Z) (i : nat) (u0 : list titem) : Prop :=
  (ytls y t = Some i /\ u0 = []) \/ (ytls y t = None /\ i = length (ych y) /\ i <> 0%nat /\ exists p, u0 = new_trace e i p).
Record Open (e : env) (y : sys) (O : list obs) (t : Z) (i : nat) (y' : sys) (O' : list obs) (k : chn) (u0 u : list titem) : Prop := {
  o_act : Act e y O y' O' noT noN u;
  o_quiet : Quiet y O y' O';
  o_ch : chain y' i = Some k;
  o_des : i <> 0%nat -> kdes k = false;
  o_tls : forall t', ytls y' t' = zupd (ytls y) t (Some i) t';
  o_entry : entry e y t i u0 }.
Lemma zupd_same {A} (f : Z -> A) t v t' : f t = v -> zupd f t v t' = f t'.
Proof. intros <-. unfold zupd. destruct (Z.eqb_spec t' t) as [->|_]; reflexivity. Qed.

Lemma runs_local e y O t : SInv e y O -> thread_ok e y O t ->
  Runs (fun f => with_local f e t y) (fun '(i, y') => exists O' k u, Open e y O t i y' O' k u u).
Proof.
  intros S T. unfold with_local. destruct (ytls y t) as [i|] eqn:E.
  - apply (runs_ok _ (i, y)); [reflexivity|]. destruct (c_tls _ _ _ (sinv_cor _ _ _ S) t i E) as (k & H1 & H2). exists O, k, []. constructor.
    + exact (act_refl e y O S).
    + apply quiet_refl.
    + exact H1.
    + exact H2.
    + intros t'. rewrite zupd_same by exact E. reflexivity.
    + left. auto.
  - eapply runs_mono; [exact (runs_create e y O t S (T E))|]. intros (i & y') (O' & p & k & A & Q & Hi & HT & Hk & Hd). exists O', k, (new_trace e i p). constructor; auto.
    + intros t'. rewrite HT. reflexivity.
    + right. split; [exact E|]. split; [exact Hi|]. split; [|eauto]. intros ->. destruct (c_egg _ _ _ (sinv_cor _ _ _ S)) as (k0 & K & _). apply chain_lt in K. lia.
Qed.
Lemma open_inv e y O t i y' O' k u0 u : Open e y O t i y' O' k u0 u -> SInv e y' O'.
Proof. intros H. exact (f_inv _ _ _ _ _ _ _ (a_eff _ _ _ _ _ _ _ _ (o_act _ _ _ _ _ _ _ _ _ _ H))). Qed.

(** A chain in use by a thread is not destroyed. *)
Lemma after_alive i k w u : after i k w u -> (i <> 0%nat -> kdes k = false) -> u = if w then [TUnlock i] else [].
Proof. intros (v & -> & [-> |(N & K & _)]) H; [apply app_nil_r|]. rewrite (H N) in K. discriminate. Qed.
Lemma act_alive e y O y' O' T N tr i k : Act e y O y' O' T N tr -> chain y i = Some k -> (i <> 0%nat -> kdes k = false) ->
  exists k', chain y' i = Some k' /\ kg k' = kg k /\ ksh k' = ksh k /\ kdes k' = kdes k.
Proof.
  intros A Hk Hd. destruct (l_live _ _ _ _ _ (a_life _ _ _ _ _ _ _ _ A) i k Hk) as [(k' & K1 & K2 & K3 & K4 & _)|(K & N0 & _)]; [exists k'; auto|]. rewrite (Hd N0) in K. discriminate.
Qed.

Lemma purge_valid e y O i k : cvalid e y O no_os i k OPurge.
Proof. split; [exact Logic.I|]. split; [exact Logic.I|]. split; [intros z _ K; discriminate|intros _ q []]. Qed.
Lemma runs_purge e y O t i y1 O1 k u0 u : Open e y O t i y1 O1 k u0 u ->
  Runs (fun f => chain_call f e no_os i OPurge y1) (fun '(r, y') => exists O' k' evs, Open e y O t i y' O' k' u0 (TCall i OPurge r evs :: u)).
Proof.
  intros H. pose proof (open_inv _ _ _ _ _ _ _ _ _ _ H) as S1.
  eapply runs_mono; [apply (runs_chain e y1 O1 no_os i k OPurge S1 (o_ch _ _ _ _ _ _ _ _ _ _ H) (purge_valid e y1 O1 i k)); discriminate|].
  intros (r & y') (O' & c' & y2 & O2 & s' & v & C). pose proof (after_alive _ _ _ _ (h_after _ _ _ _ _ _ _ _ _ _ _ _ _ _ _ C) (o_des _ _ _ _ _ _ _ _ _ _ H)) as ->.
  destruct (d_ask _ _ _ _ _ _ _ _ _ _ _ (h_call _ _ _ _ _ _ _ _ _ _ _ _ _ _ _ C) (or_introl eq_refl)) as (-> & _).
  pose proof (h_act _ _ _ _ _ _ _ _ _ _ _ _ _ _ _ C) as A. cbn [locks app target new_blk] in A.
  destruct (act_alive _ _ _ _ _ _ _ _ i k A (o_ch _ _ _ _ _ _ _ _ _ _ H) (o_des _ _ _ _ _ _ _ _ _ _ H)) as (k' & K1 & _ & _ & K2).
  exists O', k', (sevs s'). constructor.
  - apply (act_seq _ _ _ _ _ _ _ _ noT noN [TCall i OPurge r (sevs s')] (o_act _ _ _ _ _ _ _ _ _ _ H)). destruct A as [A1 A2 A3 A4]. constructor; [|exact A2|exact A3|exact A4].
    apply (eff_sub _ _ _ _ _ _ noT _ noN A1); [intros q []|intros j b _ []|intros j b _ (_ & [])].
  - exact (quiet_trans _ _ _ _ _ _ (o_quiet _ _ _ _ _ _ _ _ _ _ H) (h_quiet _ _ _ _ _ _ _ _ _ _ _ _ _ _ _ C (or_introl eq_refl))).
  - exact K1.
  - intros N. rewrite K2. exact (o_des _ _ _ _ _ _ _ _ _ _ H N).
  - intros t'. rewrite (h_tls _ _ _ _ _ _ _ _ _ _ _ _ _ _ _ C). exact (o_tls _ _ _ _ _ _ _ _ _ _ H t').
  - exact (o_entry _ _ _ _ _ _ _ _ _ _ H).
Qed.

Lemma act_holds e y O y' O' T N tr j b : SInv e y O -> Act e y O y' O' T N tr -> holds y O j b -> ~ T (bp b) -> holds y' O' j b.
Proof. intros S A H NT. destruct (held_size _ _ _ _ _ S H) as (u & U & _). exact (proj1 (f_keep _ _ _ _ _ _ _ (a_eff _ _ _ _ _ _ _ _ A) j b u H NT U)). Qed.

(** ** Blocks just allocated *)
Lemma reserved_block e y O p : SInv e y O -> reserved y p -> exists b, In b (live (oat O 0)) /\ bp b = p.
Proof.
  intros S. pose proof (sinv_cor _ _ _ S) as Co. intros [->|(j & kj & N & H & <-)].
  - destruct (c_light _ _ _ Co) as (d & K). eexists. split; [exact K|reflexivity].
  - destruct (c_struct _ _ _ Co j kj H N) as (d & K). eexists. split; [exact K|reflexivity].
Qed.
Lemma away_reserved e y O i k b : SInv e y O -> chain y i = Some k -> i <> 0%nat -> In b (live (oat O i)) -> ~ reserved y (bp b).
Proof.
  intros S Hk N Hb Hr. pose proof (sinv_cor _ _ _ S) as Co. destruct (reserved_block _ _ _ _ S Hr) as (b0 & B1 & B2). destruct (c_egg _ _ _ Co) as (k0 & K0 & _).
  destruct (egg_block e y O Co b0 k0 K0 (in_or_app _ _ _ (or_introl B1))) as (u0 & _ & U1 & U2 & U3 & U4).
  destruct (blocks_inside _ _ _ (c_reach _ _ _ Co i k Hk) b (in_or_app _ _ _ (or_introl Hb))) as (u & x & z & I1 & I2 & I3 & I4 & I5 & I6).
  destruct (c_away _ _ _ Co i k _ N Hk I4) as (_ & A). unfold ChainSpec.apart in A. cbn [fst snd] in A. lia.
Qed.
Lemma new_held e y O i k c r y' O' c' s' b : SInv e y O -> chain y i = Some k -> Called e y O i k c r y' O' c' s' -> (forall h n gr, c' <> ORealloc h 0 n gr) ->
  In b (live (oat O' i)) -> new_blk (oat O i) c' r b -> holds y' O' i b.
Proof.
  intros S Hk D NP Hl HN. pose proof (d_inv _ _ _ _ _ _ _ _ _ _ _ D) as S'. pose proof (d_ch _ _ _ _ _ _ _ _ _ _ _ D) as Hk'. split; [eauto|]. split; [exact Hl|].
  destruct (Nat.eq_dec i 0) as [Ei|Ni]; [|exact (away_reserved _ _ _ _ _ _ S' Hk' Ni Hl)]. rewrite (cd_reserved _ _ _ _ _ _ _ _ _ _ _ Hk D). intros HR.
  destruct (reserved_block _ _ _ _ S HR) as (b0 & B1 & B2). assert (NT : ~ target c' (bp b)) by (intros K; exact (d_tgt _ _ _ _ _ _ _ _ _ _ _ D Ei _ K HR)).
  pose proof (live_nodup _ _ _ (c_reach _ _ _ (sinv_cor _ _ _ S') i _ Hk')) as ND. rewrite (cd_oati _ _ _ _ _ _ _ _ _ _ _ S Hk D) in ND, Hl. subst i.
  destruct c' as [d n gr|p|h p n gr|bb z|x v|p| |m]; cbn [new_blk] in HN; try contradiction.
  - destruct HN as (Hr & ->). cbn [next live] in ND. destruct (Z.eqb_spec r 0); [contradiction|]. cbn [map bp] in ND. apply NoDup_cons_iff in ND as (NI & _). apply NI. cbn [bp] in B2. rewrite <- B2.
    apply in_map. exact B1.
  - destruct HN as (Hr & [-> |(-> & m & d & _ & ->)]); [|exact (NT eq_refl)]. cbn [bp target] in *. cbn [next live] in ND.
    destruct (Z.eqb_spec p 0) as [->|Np]; [exact (NP _ _ _ eq_refl)|]. destruct (Z.eqb_spec n 0) as [En|Nn].
    + cbn [next live] in Hl. destruct (Z.eqb_spec p 0); [contradiction|]. destruct (Z.eqb_spec n 0); [|contradiction]. apply filter_In in Hl as (Hl & _).
      destruct (c_egg _ _ _ (sinv_cor _ _ _ S)) as (k0 & K0 & _). destruct (blocks_inside _ _ _ (c_reach _ _ _ (sinv_cor _ _ _ S) 0%nat k0 K0) _ (in_or_app _ _ _ (or_introl Hl))) as (u & x & z & I1 & I2 & I3 & _). cbn [bn] in I3. lia.
    + destruct (Z.eqb_spec r p) as [->|Nrp]; [exact (NT eq_refl)|]. destruct (Z.eqb_spec r 0); [contradiction|]. cbn [map bp] in ND. apply NoDup_cons_iff in ND as (NI & _). apply NI. rewrite <- B2. apply in_map.
      apply filter_In. split; [exact B1|]. destruct (Z.eqb_spec (bp b0) p); [congruence|reflexivity].
Qed.

Lemma new_fresh e y O i k c d n gr r y' O' s' j b : SInv e y O -> chain y i = Some k -> Called e y O i k c r y' O' (OAlloc d n gr) s' -> r <> 0 -> holds y O j b -> bp b <> r.
Proof.
  intros S Hk D Hr H E. pose proof (d_inv _ _ _ _ _ _ _ _ _ _ _ D) as S'. destruct (held_size _ _ _ _ _ S H) as (u & U & _).
  pose proof (cd_oati _ _ _ _ _ _ _ _ _ _ _ S Hk D) as EO. cbn [next] in EO. destruct (Z.eqb_spec r 0); [contradiction|].
  assert (HN : holds y' O' i (mkBlk r n d)).
  { apply (new_held _ _ _ _ _ _ _ _ _ _ _ _ S Hk D); [discriminate|rewrite EO; left; reflexivity|cbn [new_blk]; auto]. }
  pose proof (proj1 (f_keep _ _ _ _ _ _ _ (called_eff _ _ _ _ _ _ _ _ _ _ _ S Hk D ltac:(discriminate)) j b u H (fun K => K) U)) as H'.
  destruct (held_unique _ _ _ _ _ _ _ S' H' HN E) as (-> & ->).
  pose proof (live_nodup _ _ _ (c_reach _ _ _ (sinv_cor _ _ _ S') i _ (d_ch _ _ _ _ _ _ _ _ _ _ _ D))) as ND. rewrite EO in ND. cbn [live map bp] in ND.
  apply NoDup_cons_iff in ND as (NI & _). apply NI. exact (in_map bp _ _ (proj1 (proj2 H))).
Qed.

(** ** sctk_malloc and sctk_memalign *)
Record Alloced (e : env) (y : sys) (O : list obs) (t d n r : Z) (y' : sys) (O' : list obs) (i : nat) (u : list titem) : Prop := {
  al_act : Act e y O y' O' noT (fun j b => j = i /\ r <> 0 /\ b = mkBlk r n d) u;
  al_held : r <> 0 -> holds y' O' i (mkBlk r n d);
  al_fresh : r <> 0 -> forall j b, holds y O j b -> bp b <> r;
  al_null : i <> 0%nat -> r <> 0;
  al_tls : forall t', ytls y' t' = zupd (ytls y) t (Some i) t';
  al_tr : exists u0 r0 evs0 gr evs, entry e y t i u0 /\ u = TCall i (OAlloc d n gr) r evs :: TCall i OPurge r0 evs0 :: u0;
  al_egg : i = 0%nat -> Quiet y O y' O' }.

Lemma one_pos n : 0 <= n -> 1 <= one n.
Proof. unfold one. destruct (Z.eqb_spec n 0); lia. Qed.
Lemma one_idem n : (if n =? 0 then 1 else n) = one n.
Proof. reflexivity. Qed.
Lemma ask_request e y O d n os g : ask_ok e y d n os -> request_ok g O d n None.
Proof. intros (H1 & H2 & H3 & H4 & _). split; [exact H1|]. split; [exact H2|]. split; [exact H3|]. split; [intros _; exact H4|]. intros _ b K. discriminate. Qed.

Lemma runs_alloc e y O os t dd n : SInv e y O -> thread_ok e y O t -> 1 <= one n -> ask_ok e y (dd (one n)) (one n) os ->
  Runs (fun f => p_alloc f e os t dd n y) (fun '(r, y') => exists O' i u, Alloced e y O t (dd (one n)) (one n) r y' O' i u).
Proof.
  intros S T Hn HA. unfold p_alloc. eapply runs_bind; [exact (runs_local e y O t S T)|]. intros (i & y0) (O0 & k0 & u0 & H0).
  eapply runs_bind; [exact (runs_purge e y O t i y0 O0 k0 u0 u0 H0)|]. intros (r0 & y1) (O1 & k & evs0 & H).
  change (if n =? 0 then 1 else n) with (one n). set (m := one n) in *. set (d := dd m) in *.
  pose proof (open_inv _ _ _ _ _ _ _ _ _ _ H) as S1. pose proof (o_ch _ _ _ _ _ _ _ _ _ _ H) as Hk. pose proof (o_des _ _ _ _ _ _ _ _ _ _ H) as Hd.
  assert (CV : cvalid e y1 O1 os i k (OAlloc d m None)).
  { split; [exact Logic.I|]. split; [exact (ask_request _ _ _ _ _ _ _ HA)|]. split; [|intros _ q []]. intros z _ K. cbn [asks] in K. destruct (m =? 0); [discriminate|]. injection K as <-.
    apply (quiet_os _ _ _ _ _ _ _ (o_quiet _ _ _ _ _ _ _ _ _ _ H)). apply HA. }
  eapply runs_mono; [apply (runs_chain e y1 O1 os i k _ S1 Hk CV); [discriminate|intros K N; rewrite (Hd N) in K; discriminate]|].
  intros (r & y') (O' & c' & y2 & O2 & s' & v & C). pose proof (after_alive _ _ _ _ (h_after _ _ _ _ _ _ _ _ _ _ _ _ _ _ _ C) Hd) as ->. cbn [locks] in C.
  pose proof (h_call _ _ _ _ _ _ _ _ _ _ _ _ _ _ _ C) as D.
  assert (EC : exists gr, c' = OAlloc d m gr) by (destruct (d_op _ _ _ _ _ _ _ _ _ _ _ D) as [->|(_ & b & ->)]; eexists; reflexivity). destruct EC as (gr & ->).
  pose proof (h_act _ _ _ _ _ _ _ _ _ _ _ _ _ _ _ C) as A. cbn [app] in A.
  exists O', i, (TCall i (OAlloc d m gr) r (sevs s') :: TCall i OPurge r0 evs0 :: u0). constructor.
  - apply (act_seq _ _ _ _ _ _ _ _ _ _ [TCall i (OAlloc d m gr) r (sevs s')] (o_act _ _ _ _ _ _ _ _ _ _ H)). destruct A as [A1 A2 A3 A4]. constructor; [|exact A2|exact A3|exact A4].
    apply (eff_sub _ _ _ _ _ _ noT _ _ A1); [intros q []|intros j b _ []|]. intros j b _ K. exact K.
  - intros Hr. assert (HN : holds y2 O2 i (mkBlk r m d)).
    { apply (new_held _ _ _ _ _ _ _ _ _ _ _ _ S1 Hk D); [discriminate| |cbn [new_blk]; auto].
      rewrite (cd_oati _ _ _ _ _ _ _ _ _ _ _ S1 Hk D). cbn [next live]. destruct (Z.eqb_spec r 0); [contradiction|left; reflexivity]. }
    destruct (held_size _ _ _ _ _ (d_inv _ _ _ _ _ _ _ _ _ _ _ D) HN) as (uu & U & _).
    exact (proj1 (f_keep _ _ _ _ _ _ _ (h_eff _ _ _ _ _ _ _ _ _ _ _ _ _ _ _ C) _ _ _ HN (fun K => K) U)).
  - intros Hr j b Hb. apply (new_fresh _ _ _ _ _ _ _ _ _ _ _ _ _ j b S1 Hk D Hr). apply (act_holds _ _ _ _ _ _ _ _ _ _ S (o_act _ _ _ _ _ _ _ _ _ _ H) Hb). intros [].
  - intros N. apply (d_null _ _ _ _ _ _ _ _ _ _ _ D N). cbn [asks]. destruct (Z.eqb_spec m 0); [lia|discriminate].
  - intros t'. rewrite (h_tls _ _ _ _ _ _ _ _ _ _ _ _ _ _ _ C). exact (o_tls _ _ _ _ _ _ _ _ _ _ H t').
  - exists u0, r0, evs0, gr, (sevs s'). split; [exact (o_entry _ _ _ _ _ _ _ _ _ _ H)|reflexivity].
  - intros Ei. exact (quiet_trans _ _ _ _ _ _ (o_quiet _ _ _ _ _ _ _ _ _ _ H) (h_quiet _ _ _ _ _ _ _ _ _ _ _ _ _ _ _ C (or_intror Ei))).
Qed.

(** ** sctk_free *)
Lemma life_back y O y' O' tr j k : Life y O y' O' tr -> chain y j = Some k -> forall k', chain y' j = Some k' -> ksh k' = ksh k /\ kdes k' = kdes k /\ kg k' = kg k.
Proof. intros L H k' H'. destruct (l_live _ _ _ _ _ L j k H) as [(k1 & K1 & K2 & K3 & K4 & _)|(_ & _ & _ & K & _)]; [|congruence]. rewrite H' in K1. injection K1 as <-. auto. Qed.

(** A lookup changes the registry only. *)
Lemma act_look e y O y' : SInv e y O -> SInv e y' O -> ymem y' = ymem y -> ych y' = ych y -> ylight y' = ylight y -> ytr y' = ytr y -> Act e y O y' O noT noN [].
Proof. intros S S' H1 H2 H3 H4. constructor; [exact (eff_same e y y' O S S' H1 H2 H3)|exact H4|reflexivity|apply life_still; exact H2]. Qed.
Lemma held_48 e y O i b : SInv e y O -> holds y O i b -> 0 <= bp b < 2 ^ 48.
Proof. intros S H. destruct (held_size _ _ _ _ _ S H) as (u & _ & H1 & H2 & H3 & H4). change (2 ^ 47) with 140737488355328 in H4. change (2 ^ 48) with 281474976710656. lia. Qed.
(** The lookup of a block finds its chain. *)
Lemma held_seg e y O i b j k rb z : SInv e y O -> holds y O i b -> chain y j = Some k -> In (rb, z) (segs (oat O j)) -> rb <= bp b < rb + z -> j = i.
Proof.
  intros S H Hj Hr Hx. pose proof (sinv_cor _ _ _ S) as Co. destruct H as ((ki & Hi) & Hl & _). destruct (Nat.eq_dec j i) as [E|N]; [exact E|]. exfalso.
  destruct (blocks_inside _ _ _ (c_reach _ _ _ Co i ki Hi) b (in_or_app _ _ _ (or_introl Hl))) as (u & x & z1 & I1 & I2 & I3 & I4 & I5 & I6).
  assert (A : ChainSpec.apart (rb, z) (x, z1)).
  { destruct (Nat.eq_dec j 0) as [Ej|Nj].
    - assert (Ni : i <> 0%nat) by congruence. destruct (c_away _ _ _ Co i ki _ Ni Hi I4) as (_ & A). rewrite Ej, (c_eseg _ _ _ Co) in Hr. destruct Hr as [Hr|[]]. injection Hr as <- <-.
      unfold ChainSpec.apart in *. cbn [fst snd] in *. lia.
    - destruct (Nat.eq_dec i 0) as [Ei|Ni].
      + destruct (c_away _ _ _ Co j k _ Nj Hj Hr) as (_ & A). rewrite Ei, (c_eseg _ _ _ Co) in I4. destruct I4 as [I4|[]]. injection I4 as <- <-. exact A.
      + exact (c_segs _ _ _ Co j i k ki _ _ Nj Ni N Hj Hi Hr I4). }
  unfold ChainSpec.apart in A. cbn [fst snd] in A. lia.
Qed.
Lemma look_held e y O i b : SInv e y O -> holds y O i b -> exists rb y', lookup e (bp b) y = Ok (rb, y') /\ Act e y O y' O noT noN [] /\ Quiet y O y' O /\
  ych y' = ych y /\ ytls y' = ytls y /\ (rb =? 0) = false /\ find_chain e rb y' = Ok i.
Proof.
  intros S H. destruct (look e y O (bp b) S (held_48 _ _ _ _ _ S H)) as (rb & y' & E & S' & Y1 & Y2 & Y3 & Y4 & Y5 & Y6 & HB). exists rb, y'. split; [exact E|].
  split; [exact (act_look e y O y' S S' Y1 Y2 Y4 Y6)|]. split; [split; [rewrite Y5; intros x Hx; exact Hx|unfold chain; rewrite Y2; eauto]|]. split; [exact Y2|]. split; [exact Y3|].
  destruct HB as [(j & k & z & J1 & J2 & J3)|(-> & F)].
  - pose proof (held_seg _ _ _ _ _ _ _ _ _ S H J1 J2 J3) as ->. pose proof (sinv_cor _ _ _ S) as Co. split.
    + destruct (Z.eqb_spec rb 0) as [->|]; [|reflexivity]. exfalso. destruct S as (out & C & L & M). destruct (m_env _ _ _ _ _ _ _ _ _ M) as (_ & _ & W & _). destruct (Nat.eq_dec i 0) as [Ei|Ni].
      * rewrite Ei, (c_eseg _ _ _ Co) in J2. destruct J2 as [J2|[]]. injection J2 as K _. lia.
      * pose proof (mid_seg _ _ _ _ _ _ _ _ _ M i k _ Ni J1 J2) as Ho. destruct (mid_page _ _ _ _ _ _ _ _ _ M _ Ho) as (_ & (K & _) & _). cbn [fst] in K. lia.
    + apply (find_it e y' O i k rb z S'); [unfold chain in *; rewrite Y2; exact J1|exact J2].
  - exfalso. destruct F as (_ & F). destruct H as ((ki & Hi) & Hl & _). destruct (blocks_inside _ _ _ (c_reach _ _ _ (sinv_cor _ _ _ S) i ki Hi) b (in_or_app _ _ _ (or_introl Hl))) as (u & x & z1 & I1 & I2 & I3 & I4 & I5 & I6).
    apply (F i ki x z1 Hi I4). lia.
Qed.

Record Freed (e : env) (y : sys) (O : list obs) (t p : Z) (i : nat) (y' : sys) (O' : list obs) (tr : list titem) : Prop := {
  fr_act : Act e y O y' O' (atT p) noN tr;
  fr_quiet : Quiet y O y' O';
  fr_tls : exists l u0, entry e y t l u0 /\ (forall t', ytls y' t' = zupd (ytls y) t (Some l) t') /\
    exists k w u r evs r0 evs0, chain y i = Some k /\ after i k w u /\
      tr = u ++ TCall i (if ksh k || Nat.eqb i l then OFree p else ORemote p) r evs :: TCall l OPurge r0 evs0 :: u0 }.
Lemma open_old e y O t i y' O' k u0 u j kj : Open e y O t i y' O' k u0 u -> chain y j = Some kj -> forall k', chain y' j = Some k' -> ksh k' = ksh kj /\ kdes k' = kdes kj /\ kg k' = kg kj.
Proof. intros H Hj. exact (life_back _ _ _ _ _ _ _ (a_life _ _ _ _ _ _ _ _ (o_act _ _ _ _ _ _ _ _ _ _ H)) Hj). Qed.
Lemma runs_free e y O t p i n d : SInv e y O -> thread_ok e y O t -> holds y O i (mkBlk p n d) ->
  Runs (fun f => p_free f e t p y) (fun '(r, y') => exists O' tr, Freed e y O t p i y' O' tr).
Proof.
  intros S T H. unfold p_free. eapply runs_bind; [exact (runs_local e y O t S T)|]. intros (l & y0) (O0 & k0 & u0 & H0).
  eapply runs_bind; [exact (runs_purge e y O t l y0 O0 k0 u0 u0 H0)|]. intros (r0 & y1) (O1 & kl & evs0 & H1).
  pose proof (open_inv _ _ _ _ _ _ _ _ _ _ H1) as S1. assert (HH : holds y1 O1 i (mkBlk p n d)) by (apply (act_holds _ _ _ _ _ _ _ _ _ _ S (o_act _ _ _ _ _ _ _ _ _ _ H1) H); intros []).
  destruct (held_size _ _ _ _ _ S1 HH) as (uu & _ & _ & _ & Hp & _). cbn [bp] in Hp. destruct (Z.eqb_spec p 0) as [K|_]; [lia|].
  destruct (look_held _ _ _ _ _ S1 HH) as (rb & y2 & E & A2 & Q2 & Y2 & T2 & E0 & EF). cbn [bp] in E. rewrite E. cbn [rbind]. rewrite E0, EF. cbn [rbind].
  pose proof (f_inv _ _ _ _ _ _ _ (a_eff _ _ _ _ _ _ _ _ A2)) as S2. pose proof (act_holds _ _ _ _ _ _ _ _ _ _ S1 A2 HH (fun K => K)) as H2.
  destruct H as ((k & Hk) & Hl & Hr). destruct H2 as ((k2 & Hk2) & Hl2 & Hr2).
  assert (KK : ksh k2 = ksh k /\ kdes k2 = kdes k /\ kg k2 = kg k).
  { apply (life_back y O y2 O1 _ i k (a_life _ _ _ _ _ _ _ _ (act_seq _ _ _ _ _ _ _ _ _ _ _ (o_act _ _ _ _ _ _ _ _ _ _ H1) A2)) Hk k2 Hk2). }
  destruct KK as (KS & KD & KG). unfold is_shared. rewrite Hk2, KS. set (c := if ksh k || Nat.eqb i l then OFree p else ORemote p).
  assert (CV : cvalid e y2 O1 no_os i k2 c).
  { unfold c. destruct (ksh k || Nat.eqb i l); (split; [exact Logic.I|split; [|split; [intros z _ K; discriminate|intros _ q ->; exact Hr2]]]); [right; eauto|exists n, d; exact Hl2]. }
  assert (CA : asks c = None) by (unfold c; destruct (ksh k || Nat.eqb i l); reflexivity).
  assert (NR : forall h n gr, c <> ORealloc h 0 n gr) by (intros; unfold c; destruct (ksh k || Nat.eqb i l); discriminate).
  assert (NA : kdes k2 = true -> i <> 0%nat -> forall d n gr, c <> OAlloc d n gr) by (intros; unfold c; destruct (ksh k || Nat.eqb i l); discriminate).
  eapply runs_mono; [exact (runs_chain e y2 O1 no_os i k2 c S2 Hk2 CV NR NA)|].
  intros (r & y') (O' & c' & y3 & O3 & s' & v & C). destruct (d_ask _ _ _ _ _ _ _ _ _ _ _ (h_call _ _ _ _ _ _ _ _ _ _ _ _ _ _ _ C) (or_introl CA)) as (-> & _).
  pose proof (h_act _ _ _ _ _ _ _ _ _ _ _ _ _ _ _ C) as A. exists O', (v ++ [TCall i c r (sevs s')] ++ TCall l OPurge r0 evs0 :: u0). constructor.
  - rewrite app_assoc. apply (act_seq _ _ _ y1 O1 _ _ _ _ _ _ (o_act _ _ _ _ _ _ _ _ _ _ H1)). rewrite <- (app_nil_r (v ++ _)). apply (act_seq _ _ _ y2 O1 _ _ _ _ _ _ A2).
    destruct A as [A1 A2' A3 A4]. constructor; [|exact A2'|exact A3|exact A4].
    apply (eff_sub _ _ _ _ _ _ (atT p) _ noN A1); unfold c; destruct (ksh k || Nat.eqb i l); cbn [target new_blk]; try (intros q K; exact K); try (intros j b _ K; exact K); intros j b _ (_ & []).
  - apply (quiet_trans _ _ _ _ _ _ (o_quiet _ _ _ _ _ _ _ _ _ _ H1)). apply (quiet_trans _ _ _ _ _ _ Q2). exact (h_quiet _ _ _ _ _ _ _ _ _ _ _ _ _ _ _ C (or_introl CA)).
  - exists l, u0. split; [exact (o_entry _ _ _ _ _ _ _ _ _ _ H1)|]. split; [intros t'; rewrite (h_tls _ _ _ _ _ _ _ _ _ _ _ _ _ _ _ C), T2; exact (o_tls _ _ _ _ _ _ _ _ _ _ H1 t')|].
    exists k, (locks k2 c (ymem y2)), v, r, (sevs s'), r0, evs0. split; [exact Hk|]. split; [|reflexivity]. destruct (h_after _ _ _ _ _ _ _ _ _ _ _ _ _ _ _ C) as (w & W1 & W2). exists w. split; [exact W1|].
    rewrite KD, KG in W2. exact W2.
Qed.
Lemma runs_free_none e y O t p : SInv e y O -> thread_ok e y O t -> p = 0 \/ estrict e = false /\ foreign y O p ->
  Runs (fun f => p_free f e t p y) (fun '(r, y') => exists O' l k u0 r0 evs0, Open e y O t l y' O' k u0 (TCall l OPurge r0 evs0 :: u0)).
Proof.
  intros S T H. unfold p_free. eapply runs_bind; [exact (runs_local e y O t S T)|]. intros (l & y0) (O0 & k0 & u0 & H0).
  eapply runs_bind; [exact (runs_purge e y O t l y0 O0 k0 u0 u0 H0)|]. intros (r0 & y1) (O1 & kl & evs0 & H1).
  destruct (Z.eqb_spec p 0) as [Ep|Np]; [eapply runs_ok; [intros f; reflexivity|]; exists O1, l, kl, u0, r0, evs0; exact H1|]. destruct H as [H|(HS & HF)]; [contradiction|].
  pose proof (open_inv _ _ _ _ _ _ _ _ _ _ H1) as S1. pose proof (quiet_foreign _ _ _ _ _ (o_quiet _ _ _ _ _ _ _ _ _ _ H1) HF) as HF1.
  destruct (look e y1 O1 p S1 (proj1 HF1)) as (rb & y2 & E & S2 & Y1 & Y2 & Y3 & Y4 & Y5 & Y6 & HB). rewrite E. cbn [rbind].
  destruct HB as [(j & k & z & J1 & J2 & J3)|(-> & _)]; [exfalso; exact (proj2 HF1 j k rb z J1 J2 J3)|]. rewrite Z.eqb_refl, HS. eapply runs_ok; [intros f; reflexivity|].
  exists O1, l, kl, u0, r0, evs0. destruct H1 as [G1 G2 G3 G4 G5 G6]. constructor; try assumption.
  - pose proof (act_seq _ _ _ _ _ _ _ _ _ _ _ G1 (act_look e y1 O1 y2 S1 S2 Y1 Y2 Y4 Y6)) as K. exact K.
  - apply (quiet_trans _ _ _ _ _ _ G2). split; [rewrite Y5; intros x Hx; exact Hx|unfold chain; rewrite Y2; eauto].
  - unfold chain in *. rewrite Y2. exact G3.
  - rewrite Y3. exact G5.
Qed.
