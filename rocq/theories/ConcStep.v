(** What one piece of a call does: it returns, keeps the invariant, and touches only the blocks that the call has in its hands. *)
From Verif Require Import Word Res Mem SizeClassModel ChainModel Wp ChainInv ChainSpec ChainStep ChainRefill ChainEv ChainProps ChainCap ChainSrc ChainPut ChainMore ChainCore ChainFuel ChainTrace ChainWalk
  RegionModel RegionSpec RegionProofs LightModel LightSpec LightProofs PosixModel PosixSpec PosixChain PosixInv PosixSrc PosixLocal PosixMid PosixCall PosixRun PosixEff PosixFun PosixPub PosixNew PosixApi PosixCopy
  PosixRealloc PosixStart PosixStep ConcModel ConcSpec ConcInv.
From Coq Require Import ZArith List Bool Lia.
Import ListNotations.
Open Scope Z_scope.

Definition optrs (o : out) : list Z := match o with Ret _ (Some r) => [r] | Ret _ None => [] | More k => ptrs k end.

(** An operation of a piece on a chain. *)
Definition access (y : sys) (t : Z) (k : task) (i : nat) (c : op) : Prop := exclusive y t i c /\ (c = OPurge -> ytls y t = Some i \/ k = KExitPurge i).
Record Stepped (e : env) (y : sys) (O : list obs) (t : Z) (k : task) (o : out) (y' : sys) (O' : list obs) (tr : list titem) : Prop := {
  sp_inv : SInv e y' O';
  sp_keep : forall j b u, holds y O j b -> ~ In (bp b) (ptrs k) -> size_of y j (bp b) u ->
    holds y' O' j b /\ size_of y' j (bp b) u /\ forall x, bp b <= x < bp b + u -> ymem y' x = ymem y x;
  sp_new : forall j b, holds y' O' j b -> holds y O j b \/ In (bp b) (optrs o);
  sp_drop : forall j b, holds y' O' j b -> In (bp b) (ptrs k) -> In (bp b) (optrs o);
  sp_ptrs : forall p, In p (optrs o) -> p <> 0 -> In p (ptrs k) \/ forall j b, holds y O j b -> bp b <> p;
  sp_tls : forall t', t' <> t -> ytls y' t' = ytls y t';
  sp_life : Life y O y' O' tr \/ (k = KExit /\ exists i kk, ytls y t = Some i /\ chain y i = Some kk /\ y' = exited y t i kk /\ O' = O /\ tr = []);
  sp_tr : ytr y' = tr ++ ytr y;
  sp_obs : O' = obs_after O tr;
  sp_excl : forall i c r evs, In (TCall i c r evs) tr -> access y t k i c }.

(** After a piece: what the call returns (see [result] in ConcSpec.v), or the invariant of what is left of it. *)
Definition follows (e : env) (y' : sys) (O' : list obs) (t : Z) (c : pop) (o : out) (s0 : cst) (O0 : list obs) : Prop :=
  match o with Ret _ r => result e y' O' t c r s0 O0 | More k => jok e y' O' t c k s0 O0 end.

(** ** Tools *)
Lemma runs_both {A} (x : nat -> res A) (P Q : A -> Prop) : Runs x P -> Runs x Q -> Runs x (fun a => P a /\ Q a).
Proof.
  intros (f0 & a & Pa & H1 & H2) K. exists f0, a. split; [|auto]. split; [exact Pa|]. exact (runs_any x Q f0 a K (H1 f0 (Nat.le_refl f0))).
Qed.
Lemma runs_map {A B} (x : nat -> res A) (g : A -> B) (P : A -> Prop) (Q : B -> Prop) : Runs x P -> (forall a, P a -> Q (g a)) -> Runs (fun f => rbind (x f) (fun a => Ok (g a))) Q.
Proof. intros H K. apply (runs_bind x (fun _ a => Ok (g a)) P); [exact H|]. intros a Pa. eapply runs_ok; [reflexivity|exact (K a Pa)]. Qed.

Lemma act_kept e y O y' O' T N tr t (P : Z -> Prop) : Act e y O y' O' T N tr -> ytls y' t = ytls y t -> (forall q, P q -> ~ T q) -> Kept y O y' O' t P.
Proof.
  intros A ET HP. pose proof (a_life _ _ _ _ _ _ _ _ A) as L. constructor.
  - intros j b u H Pb U. exact (f_keep _ _ _ _ _ _ _ (a_eff _ _ _ _ _ _ _ _ A) j b u H (HP _ Pb) U).
  - exact ET.
  - exact (l_len _ _ _ _ _ L).
  - intros i Hi Hn. exact (proj1 (l_dead _ _ _ _ _ L i Hi Hn)).
  - intros i Hs. unfold is_shared in Hs. destruct (chain y i) as [k|] eqn:Ek; [|discriminate].
    destruct (l_live _ _ _ _ _ L i k Ek) as [(k' & K1 & _ & K3 & _)|(_ & _ & _ & K & _)]; [right|left; exact K]. unfold is_shared. rewrite K1, K3. exact Hs.
Qed.

Lemma stepped_act e y O t k o y' O' T N tr : Act e y O y' O' T N tr ->
  (forall j b, holds y O j b -> T (bp b) -> In (bp b) (ptrs k)) ->
  (forall j b, holds y' O' j b -> N j b -> In (bp b) (optrs o)) ->
  (forall j b, holds y' O' j b -> ~ T (bp b) -> In (bp b) (ptrs k) -> In (bp b) (optrs o)) ->
  (forall p, In p (optrs o) -> p <> 0 -> In p (ptrs k) \/ forall j b, holds y O j b -> bp b <> p) ->
  (forall t', t' <> t -> ytls y' t' = ytls y t') -> (forall i c r evs, In (TCall i c r evs) tr -> access y t k i c) -> Stepped e y O t k o y' O' tr.
Proof.
  intros A HT HN HD HP HS HX. destruct A as [[F1 F2 F3 F4] A1 A2 A3]. constructor.
  - exact F1.
  - intros j b u H Nb U. apply (F3 j b u H); [intros K; exact (Nb (HT j b H K))|exact U].
  - intros j b H. destruct (F4 j b H) as [(K & _)|K]; [left; exact K|right; exact (HN j b H K)].
  - intros j b H Hb. destruct (F4 j b H) as [(K1 & K2)|K]; [exact (HD j b H K2 Hb)|exact (HN j b H K)].
  - exact HP.
  - exact HS.
  - left. exact A3.
  - exact A1.
  - exact A2.
  - exact HX.
Qed.
(** A piece that neither takes nor gives a block. *)
Lemma stepped_quiet e y O t k o y' O' tr : Act e y O y' O' noT noN tr -> (forall p, In p (optrs o) <-> In p (ptrs k)) ->
  (forall t', t' <> t -> ytls y' t' = ytls y t') -> (forall i c r evs, In (TCall i c r evs) tr -> access y t k i c) -> Stepped e y O t k o y' O' tr.
Proof.
  intros A HP HS HX. apply (stepped_act _ _ _ _ _ _ _ _ _ _ _ A).
  - intros j b _ [].
  - intros j b _ [].
  - intros j b _ _ K. apply HP. exact K.
  - intros p K _. left. apply HP. exact K.
  - exact HS.
  - exact HX.
Qed.

Lemma egg_shared e y O : SInv e y O -> is_shared y 0 = true.
Proof. intros S. destruct (c_egg _ _ _ (sinv_cor _ _ _ S)) as (k & Hk & _ & Hs). unfold is_shared. rewrite Hk. exact Hs. Qed.
Lemma egg_excl e y O t c : SInv e y O -> exclusive y t 0 c.
Proof. intros S. left. exact (egg_shared e y O S). Qed.
Lemma mine_excl y t i c : mine y t i -> exclusive y t i c.
Proof. intros [H|H]; [left; exact H|right; left; exact H]. Qed.
Lemma entry_excl e y O t k i u0 : SInv e y O -> entry e y t i u0 -> forall j c r evs, In (TCall j c r evs) u0 -> access y t k j c.
Proof.
  intros S [(_ & ->)|(_ & _ & _ & p & ->)] j c r evs H; [destruct H|]. destruct H as [H|[H|[]]]; [discriminate|]. injection H as <- <- _ _. split; [exact (egg_excl e y O t _ S)|discriminate].
Qed.
Lemma after_excl e y O t kk i k w u : SInv e y O -> after i k w u -> forall j c r evs, In (TCall j c r evs) u -> access y t kk j c.
Proof.
  intros S (v & -> & HV) j c r evs H. apply in_app_iff in H as [H|H]; [destruct w; [destruct H as [H|[]]; discriminate|destruct H]|].
  destruct HV as [-> |(_ & _ & r' & ->)]; [destruct H|]. destruct H as [H|[H|[]]]; [discriminate|]. injection H as <- <- _ _. split; [exact (egg_excl e y O t _ S)|discriminate].
Qed.
Lemma other_tls {A} (f : Z -> A) t v t' : t' <> t -> zupd f t v t' = f t'.
Proof. intros N. unfold zupd. destruct (Z.eqb_spec t' t); [contradiction|reflexivity]. Qed.
Lemma same_tls {A} (f : Z -> A) t v : zupd f t v t = v.
Proof. unfold zupd. rewrite Z.eqb_refl. reflexivity. Qed.

Lemma open_here e y O t l : SInv e y O -> ytls y t = Some l -> exists k, Open e y O t l y O k [] [].
Proof.
  intros S E. destruct (c_tls _ _ _ (sinv_cor _ _ _ S) t l E) as (k & H1 & H2). exists k. constructor.
  - exact (act_refl e y O S).
  - apply quiet_refl.
  - exact H1.
  - exact H2.
  - intros t'. rewrite zupd_same by exact E. reflexivity.
  - left. auto.
Qed.
Lemma open_tls e y O t l y' O' k u0 u : Open e y O t l y' O' k u0 u -> ytls y' t = Some l.
Proof. intros H. rewrite (o_tls _ _ _ _ _ _ _ _ _ _ H). apply same_tls. Qed.
Lemma open_others e y O t l y' O' k u0 u : Open e y O t l y' O' k u0 u -> forall t', t' <> t -> ytls y' t' = ytls y t'.
Proof. intros H t' N. rewrite (o_tls _ _ _ _ _ _ _ _ _ _ H). apply other_tls. exact N. Qed.
(** What is known of a call survives when its thread gets its chain. *)
Lemma open_jok e y O t l y' O' k u0 u c kk s0 O0 : SInv e y O -> Open e y O t l y' O' k u0 u -> ytls y t = Some l ->
  jok e y O t c kk s0 O0 -> jok e y' O' t c kk s0 O0.
Proof.
  intros S H E J. apply (kept_jok e y O y' O' t (fun _ => True) S) with (2 := J); [|auto].
  apply (act_kept _ _ _ _ _ _ _ _ _ _ (o_act _ _ _ _ _ _ _ _ _ _ H)); [rewrite E; exact (open_tls _ _ _ _ _ _ _ _ _ _ H)|intros q _ []].
Qed.

(** The same for a thread that may get its first chain. *)
Section Enter.
  Variables (e : env) (y : sys) (O : list obs) (t : Z) (l : nat) (y' : sys) (O' : list obs) (k : chn) (u0 u : list titem).
  Hypothesis S : SInv e y O.
  Hypothesis H : Open e y O t l y' O' k u0 u.
  Lemma enter_blk j b w : holds y O j b -> size_of y j (bp b) w -> holds y' O' j b /\ size_of y' j (bp b) w /\ forall x, bp b <= x < bp b + w -> ymem y' x = ymem y x.
  Proof. intros H1 H2. exact (f_keep _ _ _ _ _ _ _ (a_eff _ _ _ _ _ _ _ _ (o_act _ _ _ _ _ _ _ _ _ _ H)) j b w H1 (fun K => K) H2). Qed.
  Lemma enter_rok p i s0 O0 : rok y O p i s0 O0 -> rok y' O' p i s0 O0.
  Proof.
    intros (m & d & w & H1 & H2 & H3 & H4 & H5 & H6). destruct (enter_blk i (mkBlk p m d) w H1 H3) as (K1 & K2 & K3). cbn [bp] in *.
    exists m, d, w. split; [exact K1|]. split; [exact H2|]. split; [exact K2|]. split; [exact H4|]. split; [exact H5|]. intros x Hx. rewrite (K3 x Hx). exact (H6 x Hx).
  Qed.
  Lemma enter_fok p : fok y O p -> fok y' O' p.
  Proof. intros [K|(i & n & d & K)]; [left; exact K|right]. exists i, n, d. destruct (held_size _ _ _ _ _ S K) as (w & W & _). exact (proj1 (enter_blk _ _ _ K W)). Qed.
  Lemma enter_egg : ytls y t <> Some 0%nat -> l <> 0%nat.
  Proof. intros K. destruct (o_entry _ _ _ _ _ _ _ _ _ _ H) as [(K1 & _)|(_ & _ & K1 & _)]; [congruence|exact K1]. Qed.
  Lemma enter_aok c d n a s0 O0 : aok e y O t c d n a s0 O0 -> aok e y' O' t c d n a s0 O0.
  Proof.
    intros (H1 & H2 & H3). split; [exact H1|]. split; [exact H2|]. pose proof (open_tls _ _ _ _ _ _ _ _ _ _ H) as ET. destruct a as [|x|i p m].
    - exact H3.
    - destruct H3 as (a & b & os & A1 & A2 & A3 & A4 & A5). exists a, b, os. split; [exact A1|]. split; [exact A2|]. split; [exact A3|]. split; [exact A4|]. rewrite ET. pose proof (enter_egg A5). congruence.
    - destruct H3 as (A1 & A2 & A3 & A4 & A5). split; [exact A1|]. split; [exact A2|]. split; [exact (enter_rok _ _ _ _ A3)|]. split; [congruence|exact A5].
  Qed.
  Lemma enter_vok c p v s0 O0 : vok y O t c p v s0 O0 -> vok y' O' t c p v s0 O0.
  Proof.
    destruct v as [[r n]|]; [|intros K; exact K]. cbn [vok]. intros (os & E & Np & K). exists os. split; [exact E|]. split; [exact Np|].
    destruct K as [K|[(K1 & K2 & K3)|(H1 & H2 & H3 & j & d & w & H4 & H5 & H6 & H7)]]; [left; exact K| |].
    - right. left. split; [exact K1|]. split; [exact K2|]. rewrite (open_tls _ _ _ _ _ _ _ _ _ _ H). destruct (o_entry _ _ _ _ _ _ _ _ _ _ H) as [(J & _)|(J & _)]; congruence.
    - right. right. split; [exact H1|]. split; [exact H2|]. split; [exact H3|]. destruct (enter_blk j (mkBlk r n d) w H4 H5) as (K1 & K2 & K3). cbn [bp] in *.
      exists j, d, w. split; [exact K1|]. split; [exact K2|]. split; [exact H6|]. intros i m d' u' x A1 A2 Hx. rewrite K3 by lia. exact (H7 i m d' u' x A1 A2 Hx).
  Qed.
End Enter.

(** ** Pieces *)
Section Pieces.
  Variables (e : env) (y : sys) (O : list obs) (t : Z) (c : pop) (s0 : cst) (O0 : list obs).
  Hypothesis S : SInv e y O.
  Hypothesis S0 : SInv e (cy s0) O0.
  Definition Good (k : task) (x : nat -> res (out * sys)) : Prop :=
    Runs x (fun '(o, y') => exists O' tr, Stepped e y O t k o y' O' tr /\ follows e y' O' t c o s0 O0).

  (** Getting the chain of the thread. *)
  Lemma good_local k (g : nat -> task) : thread_ok e y O t -> (forall l q, In q (ptrs (g l)) <-> In q (ptrs k)) ->
    (forall l y' O' kk u0 u, Open e y O t l y' O' kk u0 u -> jok e y' O' t c (g l) s0 O0) ->
    Good k (fun f => rbind (with_local f e t y) (fun '(l, y') => Ok (More (g l), y'))).
  Proof.
    intros T HP HJ. apply (runs_bind _ (fun _ a => let '(l, y') := a in Ok (More (g l), y')) _ _ (runs_local e y O t S T)). intros (l & y') (O' & kk & u & H).
    eapply runs_ok; [reflexivity|]. exists O', u. split; [|exact (HJ l y' O' kk u u H)].
    apply stepped_quiet; [exact (o_act _ _ _ _ _ _ _ _ _ _ H)|intros p; apply HP|exact (open_others _ _ _ _ _ _ _ _ _ _ H)|exact (entry_excl e y O t k l u S (o_entry _ _ _ _ _ _ _ _ _ _ H))].
  Qed.
  (** Emptying its queue. *)
  Lemma good_purge k l (k' : task) : ytls y t = Some l -> (forall q, In q (ptrs k') <-> In q (ptrs k)) -> jok e y O t c k' s0 O0 ->
    Good k (fun f => rbind (chain_call f e no_os l OPurge y) (fun '(_, y') => Ok (More k', y'))).
  Proof.
    intros E HP HJ. destruct (open_here e y O t l S E) as (kk & H0).
    apply (runs_bind _ (fun _ a => let '(_, y') := a in Ok (More k', y')) _ _ (runs_purge e y O t l y O kk [] [] H0)). intros (r & y') (O' & k1 & evs & H).
    eapply runs_ok; [reflexivity|]. exists O', [TCall l OPurge r evs]. split.
    - apply stepped_quiet; [exact (o_act _ _ _ _ _ _ _ _ _ _ H)|exact HP|exact (open_others _ _ _ _ _ _ _ _ _ _ H)|]. intros i c0 r0 ev [K|[]]. injection K as <- <- _ _. split; [right; left; exact E|intros _; left; exact E].
    - exact (open_jok e y O t l y' O' k1 _ _ c k' s0 O0 S H E HJ).
  Qed.


  Variable os : list (Z * Z) -> Z.
  Definition GoodP (k : task) : Prop := Good k (fun f => piece f e os t k y).

  Lemma good_alloc d n a : thread_ok e y O t -> jok e y O t c (KAlloc d n a) s0 O0 -> GoodP (KAlloc d n a).
  Proof.
    intros T J. apply (good_local (KAlloc d n a) (fun l => KAllocPurge l d n a)); [exact T|reflexivity|]. intros l y' O' kk u0 u H. cbn [jok] in *.
    split; [exact (open_tls _ _ _ _ _ _ _ _ _ _ H)|exact (enter_aok e y O t l y' O' kk u0 u H c d n a s0 O0 J)].
  Qed.
  Lemma good_free p v : thread_ok e y O t -> jok e y O t c (KFree p v) s0 O0 -> GoodP (KFree p v).
  Proof.
    intros T J. apply (good_local (KFree p v) (fun l => KFreePurge l p v)); [exact T|reflexivity|]. intros l y' O' kk u0 u H. cbn [jok] in *.
    split; [exact (open_tls _ _ _ _ _ _ _ _ _ _ H)|]. split; [exact (enter_fok e y O t l y' O' kk u0 u S H p (proj1 J))|exact (enter_vok e y O t l y' O' kk u0 u H c p v s0 O0 (proj2 J))].
  Qed.
  Lemma good_realloc p n : thread_ok e y O t -> jok e y O t c (KRealloc p n) s0 O0 -> GoodP (KRealloc p n).
  Proof.
    intros T (J1 & (i & J2) & J3). apply (good_local (KRealloc p n) (fun l => KReallocFind l p n)); [exact T|reflexivity|]. intros l y' O' kk u0 u H. cbn [jok] in *.
    split; [exact (open_tls _ _ _ _ _ _ _ _ _ _ H)|]. split; [exact J1|]. split; [exists i; exact (enter_rok e y O t l y' O' kk u0 u H p i s0 O0 J2)|exact J3].
  Qed.
  Lemma good_alloc_purge l d n a : jok e y O t c (KAllocPurge l d n a) s0 O0 -> GoodP (KAllocPurge l d n a).
  Proof. intros J. apply (good_purge (KAllocPurge l d n a) l (KAllocDo l d n a) (proj1 J)); [reflexivity|exact J]. Qed.
  Lemma good_free_purge l p v : jok e y O t c (KFreePurge l p v) s0 O0 -> GoodP (KFreePurge l p v).
  Proof. intros J. apply (good_purge (KFreePurge l p v) l (KFreeFind l p v) (proj1 J)); [reflexivity|exact J]. Qed.

  (** The allocation itself. *)
  Record AllocDone (l : nat) (d n r : Z) (y' : sys) (O' : list obs) (tr : list titem) : Prop := {
    ad_act : Act e y O y' O' noT (fun j b => j = l /\ r <> 0 /\ b = mkBlk r n d) tr;
    ad_held : r <> 0 -> holds y' O' l (mkBlk r n d);
    ad_fresh : r <> 0 -> forall j b, holds y O j b -> bp b <> r;
    ad_null : l <> 0%nat -> r <> 0;
    ad_tls : ytls y' = ytls y;
    ad_excl : forall k i c r evs, In (TCall i c r evs) tr -> access y t k i c }.
  Lemma runs_alloc_do l d m : ytls y t = Some l -> 1 <= m -> ask_ok e y d m os ->
    Runs (fun f => chain_call f e os l (OAlloc d m None) y) (fun '(r, y') => exists O' tr, AllocDone l d m r y' O' tr).
  Proof.
    intros E Hm HA. destruct (c_tls _ _ _ (sinv_cor _ _ _ S) t l E) as (k & Hk & Hd).
    assert (CV : cvalid e y O os l k (OAlloc d m None)).
    { split; [exact Logic.I|]. split; [exact (ask_request _ _ _ _ _ _ _ HA)|]. split; [|intros _ q []]. intros z _ K. cbn [asks] in K. destruct (m =? 0); [discriminate|]. injection K as <-. apply HA. }
    eapply runs_mono; [apply (runs_chain e y O os l k _ S Hk CV); [discriminate|intros K N; rewrite (Hd N) in K; discriminate]|].
    intros (r & y') (O' & c' & y2 & O2 & s' & v & C). pose proof (after_alive _ _ _ _ (h_after _ _ _ _ _ _ _ _ _ _ _ _ _ _ _ C) Hd) as ->. cbn [locks] in C.
    pose proof (h_call _ _ _ _ _ _ _ _ _ _ _ _ _ _ _ C) as D.
    assert (EC : exists gr, c' = OAlloc d m gr) by (destruct (d_op _ _ _ _ _ _ _ _ _ _ _ D) as [->|(_ & b & ->)]; eexists; reflexivity). destruct EC as (gr & ->).
    pose proof (h_act _ _ _ _ _ _ _ _ _ _ _ _ _ _ _ C) as A. cbn [app] in A. exists O', [TCall l (OAlloc d m gr) r (sevs s')]. constructor.
    - destruct A as [A1 A2 A3 A4]. constructor; [|exact A2|exact A3|exact A4].
      apply (eff_sub _ _ _ _ _ _ noT _ _ A1); [intros q []|intros j b _ []|]. intros j b _ K. exact K.
    - intros Hr. assert (HN : holds y2 O2 l (mkBlk r m d)).
      { apply (new_held _ _ _ _ _ _ _ _ _ _ _ _ S Hk D); [discriminate| |cbn [new_blk]; auto].
        rewrite (cd_oati _ _ _ _ _ _ _ _ _ _ _ S Hk D). cbn [next live]. destruct (Z.eqb_spec r 0); [contradiction|left; reflexivity]. }
      destruct (held_size _ _ _ _ _ (d_inv _ _ _ _ _ _ _ _ _ _ _ D) HN) as (uu & U & _).
      exact (proj1 (f_keep _ _ _ _ _ _ _ (h_eff _ _ _ _ _ _ _ _ _ _ _ _ _ _ _ C) _ _ _ HN (fun K => K) U)).
    - intros Hr j b Hb. exact (new_fresh _ _ _ _ _ _ _ _ _ _ _ _ _ j b S Hk D Hr Hb).
    - intros N. apply (d_null _ _ _ _ _ _ _ _ _ _ _ D N). cbn [asks]. destruct (Z.eqb_spec m 0); [lia|discriminate].
    - exact (h_tls _ _ _ _ _ _ _ _ _ _ _ _ _ _ _ C).
    - intros kk j c0 r0 ev [K|[]]. injection K as <- <- _ _. split; [right; left; exact E|discriminate].
  Qed.
  Lemma not_null0 i m d : ~ holds (cy s0) O0 i (mkBlk 0 m d).
  Proof. intros H. destruct (held_size _ _ _ _ _ S0 H) as (u & _ & _ & _ & K & _). cbn [bp] in K. lia. Qed.
  Lemma held_pos i b : holds y O i b -> 0 < bp b.
  Proof. intros H. destruct (held_size _ _ _ _ _ S H) as (u & _ & _ & _ & K & _). lia. Qed.
  Lemma one_same n : 0 < n -> one n = n.
  Proof. intros H. unfold one. destruct (Z.eqb_spec n 0); lia. Qed.
  Lemma good_alloc_do l d n a : os_ok e y os (ask_size (d (one n)) (one n)) -> jok e y O t c (KAllocDo l d n a) s0 O0 -> GoodP (KAllocDo l d n a).
  Proof.
    intros HO (E & Hn & HS & HJ). unfold GoodP, Good. cbn [piece]. change (if n =? 0 then 1 else n) with (one n). pose proof (one_pos n Hn) as H1. set (m := one n) in *.
    assert (HA : ask_ok e y (d m) m os) by (destruct HS as (A1 & A2 & A3 & A4); split; [exact A1|split; [exact A2|split; [exact A3|split; [exact A4|exact HO]]]]).
    apply (runs_bind _ (fun _ x => let '(r, y') := x in Ok (and_then r m a, y')) _ _ (runs_alloc_do l (d m) m E H1 HA)). intros (r & y') (O' & tr & D).
    eapply runs_ok; [reflexivity|]. exists O', tr. pose proof (ad_act _ _ _ _ _ _ _ D) as A. pose proof (act_inv _ _ _ _ _ _ _ _ A) as S'.
    assert (EN : r = 0 -> l = 0%nat) by (intros Er; destruct (Nat.eq_dec l 0) as [K|K]; [exact K|exfalso; exact (ad_null _ _ _ _ _ _ _ D K Er)]).
    assert (ET : ytls y' t = Some l) by (rewrite (ad_tls _ _ _ _ _ _ _ D); exact E).
    assert (TT : forall t', t' <> t -> ytls y' t' = ytls y t') by (intros t' _; rewrite (ad_tls _ _ _ _ _ _ _ D); reflexivity).
    assert (SP : In r (optrs (and_then r m a)) \/ r = 0 -> (forall q, In q (aptr a) -> In q (optrs (and_then r m a))) ->
       (forall q, In q (optrs (and_then r m a)) -> q <> 0 -> In q (aptr a) \/ q = r) -> Stepped e y O t (KAllocDo l d n a) (and_then r m a) y' O' tr).
    { intros P1 P2 P3. apply (stepped_act _ _ _ _ _ _ _ _ _ _ _ A).
      - intros j b _ [].
      - intros j b _ (-> & Nr & ->). destruct P1 as [P1|P1]; [exact P1|contradiction].
      - intros j b _ _ K. apply P2. exact K.
      - intros q Q1 Q2. destruct (P3 q Q1 Q2) as [K| ->]; [left; exact K|right; exact (ad_fresh _ _ _ _ _ _ _ D Q2)].
      - exact TT.
      - exact (ad_excl _ _ _ _ _ _ _ D _). }
    destruct a as [|z|i p k]; cbn [and_then] in *.
    - split.
      + apply SP; cbn [optrs aptr]; [left; left; reflexivity|intros q []|intros q [<-|[]] _; right; reflexivity].
      + cbn [follows]. destruct HJ as (J1 & J2 & J3). split; [intros K; congruence|]. intros r' K. injection K as <-. split; [|split; [|split]].
        * intros Nr. exists l, (d m), m. split; [exact (ad_held _ _ _ _ _ _ _ D Nr)|]. split; [exact J1|]. intros dd K. split; [exact (J2 dd K)|exact ET].
        * intros Er _. left. rewrite ET, (EN Er). reflexivity.
        * intros a b os' ->. destruct J3.
        * intros p n' os' i m' d' u x -> Nr K. cbn [arets] in J3. subst p. exfalso. exact (not_null0 _ _ _ K).
    - split.
      + apply SP; cbn [optrs aptr ptrs]; [left; left; reflexivity|intros q []|intros q [<-|[]] _; right; reflexivity].
      + cbn [follows jok]. destruct HJ as (a & b & os' & J1 & J2 & J3 & J4 & J5). exists a, b, os', l. split; [exact J1|]. split; [exact J2|]. split; [unfold m; rewrite J3; reflexivity|]. split; [exact ET|].
        assert (Nl : l <> 0%nat) by (intros ->; exact (J5 E)). rewrite <- J4. exact (ad_held _ _ _ _ _ _ _ D (ad_null _ _ _ _ _ _ _ D Nl)).
    - destruct HJ as (-> & J2 & J3 & J4 & (os' & J5)). assert (EM : m = n) by (apply one_same; exact J2).
      assert (J3' : rok y' O' p i s0 O0).
      { apply (kept_rok y O y' O' t (fun _ => True)); [|exact J3|exact Logic.I]. apply (act_kept _ _ _ _ _ _ _ _ _ _ A); [congruence|intros q _ []]. }
      destruct (Z.eqb_spec r 0) as [Er|Nr].
      + split; [apply SP; cbn [optrs aptr ptrs vptr]; [right; exact Er|intros q [<-|[]]; left; reflexivity|intros q [<-|[<-|[]]] K; [left; left; reflexivity|contradiction]]|].
        cbn [follows jok]. split; [right; exact (rok_held _ _ _ _ _ _ J3')|]. cbn [vok]. exists os'. split; [exact J5|]. destruct J3 as (m' & d' & u & K & _). split; [apply held_pos in K; cbn [bp] in K; lia|].
        right. left. split; [exact J2|]. split; [exact Er|]. rewrite ET, (EN Er). reflexivity.
      + split; [apply SP; cbn [optrs aptr ptrs vptr]; [left; right; left; reflexivity|intros q [<-|[]]; left; reflexivity|intros q [<-|[<-|[]]] K; [left; left; reflexivity|right; reflexivity]]|].
        cbn [follows jok]. split; [exact J2|]. split; [exact Nr|]. split; [|split; [exact J3'|split; [|exists os'; exact J5]]].
        * intros ->. destruct J3 as (m' & d' & u & K & _). exact (ad_fresh _ _ _ _ _ _ _ D Nr _ _ K eq_refl).
        * exists l, (d m). rewrite <- EM. exact (ad_held _ _ _ _ _ _ _ D Nr).
  Qed.

  (** memset of calloc, memcpy of realloc. *)
  Lemma good_zero r z n : jok e y O t c (KZero r z n) s0 O0 -> GoodP (KZero r z n).
  Proof.
    intros (a & b & os' & i & J1 & J2 & J3 & J4 & J5). unfold GoodP, Good. cbn [piece].
    assert (Hz : 0 <= z) by (rewrite J2; unfold w64; apply Z.mod_pos_bound; rewrite W64_val; lia).
    destruct (held_size _ _ _ _ _ S J5) as (u & U & U1 & _). cbn [bp bn] in *. pose proof (held_pos _ _ J5) as Hr. cbn [bp] in Hr.
    destruct (memset_held e y O i _ u z S J5 U) as (y' & E & A & H' & TL & Z0). { unfold one in J3. destruct (Z.eqb_spec z 0); lia. }
    cbn [bp] in *. rewrite E. cbn [rbind]. eapply runs_ok; [reflexivity|]. exists O, []. split.
    - apply (stepped_act _ _ _ _ _ _ _ _ _ _ _ A); cbn [ptrs optrs].
      + intros j b' _ K. left. symmetry. exact K.
      + intros j b' _ (_ & ->). left. reflexivity.
      + intros j b' _ _ K. exact K.
      + intros q K _. left. exact K.
      + intros t' _. rewrite TL. reflexivity.
      + intros j c0 r0 ev [].
    - cbn [follows]. split; [rewrite J1; discriminate|]. intros r' K. injection K as <-. rewrite TL.
      assert (EZ : (a * b) mod 2 ^ 64 = z) by (rewrite J2; unfold w64; rewrite W64_val; reflexivity). split; [|split; [|split]].
      + intros _. exists i, (ehook e n), n. split; [exact H'|]. rewrite J1. cbn [gives aligned]. rewrite EZ, <- J3. split; [reflexivity|]. intros dd K. injection K as <-. auto.
      + intros K. lia.
      + intros a' b' os2 K. rewrite J1 in K. injection K as <- <- _. split; [lia|]. rewrite <- J2. exact Z0.
      + intros p n' os2 j m' d' u' x K. congruence.
  Qed.
  Lemma good_copy i p r n : jok e y O t c (KCopy i p r n) s0 O0 -> GoodP (KCopy i p r n).
  Proof.
    intros (J1 & J2 & J3 & J4 & (j & d & J5) & (os' & J6)). unfold GoodP, Good. cbn [piece].
    pose proof J4 as (m & d0 & w & R1 & R2 & R3 & R4 & R5 & R6).
    assert (PS : p_size i p y = Ok w). { destruct R3 as (k1 & K1 & K2). unfold p_size. rewrite K1. unfold usable in K2. rewrite K2. reflexivity. } rewrite PS. cbn [rbind].
    destruct (held_size _ _ _ _ _ S J5) as (v & V & V1 & V2 & _). destruct (held_size _ _ _ _ _ S R1) as (w' & W' & W1 & W2 & _). cbn [bp bn] in *. pose proof (size_eq _ _ _ _ _ R3 W') as <-.
    destruct (memcpy_held e y O j (mkBlk r n d) v i (mkBlk p m d0) w (if n <? w then n else w) S J5 V R1 R3 J3) as (y' & E & A & H' & TL & D'); [destruct (Z.ltb_spec n w); lia|destruct (Z.ltb_spec n w); lia|destruct (Z.ltb_spec n w); lia|].
    cbn [bp] in *. rewrite E. cbn [rbind]. eapply runs_ok; [reflexivity|]. exists O, []. pose proof (act_inv _ _ _ _ _ _ _ _ A) as S'. split.
    - apply (stepped_act _ _ _ _ _ _ _ _ _ _ _ A); cbn [ptrs optrs vptr].
      + intros j' b' _ K. right. left. symmetry. exact K.
      + intros j' b' _ (_ & ->). right. left. reflexivity.
      + intros j' b' _ _ K. exact K.
      + intros q K _. left. exact K.
      + intros t' _. rewrite TL. reflexivity.
      + intros j' c0 r0 ev [].
    - cbn [follows jok]. split.
      + right. exists i, m, d0. apply (act_holds _ _ _ _ _ _ _ _ _ _ S A R1). cbn [bp]. unfold atT. congruence.
      + cbn [vok]. exists os'. split; [exact J6|]. pose proof (held_pos _ _ R1) as Hp. cbn [bp] in Hp. split; [lia|]. right. right. split; [exact J1|]. split; [exact J2|]. split; [exact J3|].
        destruct (held_size _ _ _ _ _ S' H') as (v' & V' & V1' & _). cbn [bp bn] in *. exists j, d, v'. split; [exact H'|]. split; [exact V'|]. split; [exact V1'|].
        intros i' m' d' u' x K1 K2 Hx. destruct (held_unique _ _ _ _ _ _ _ S0 K1 R4 eq_refl) as (-> & K3). pose proof (size_eq _ _ _ _ _ K2 R5) as ->.
        rewrite D' by (destruct (Z.ltb_spec n w); lia). apply R6. lia.
  Qed.

  (** free. *)
  Lemma answer_result y' O' p v : vok y' O' t c p v s0 O0 -> result e y' O' t c (option_map fst v) s0 O0.
  Proof.
    destruct v as [[r n]|]; cbn [vok option_map fst].
    - intros (os' & -> & Np & H). unfold result; cbn [gives aligned]. destruct (Z.eqb_spec p 0) as [K|_]; [contradiction|]. cbn [negb andb].
      destruct H as [(-> & ->)|[(Hn & -> & HT)|(Hn & Nr & Nrp & j & d & u & H1 & H2 & H3 & H4)]].
      + split; [intros _; right; reflexivity|]. intros r' K. injection K as <-. split; [intros K; contradiction|]. split; [intros _ K; exfalso; apply K; reflexivity|]. split; [intros; discriminate|]. intros; contradiction.
      + destruct (Z.eqb_spec n 0) as [K|_]; [lia|]. split; [discriminate|]. intros r' K. injection K as <-. split; [intros K; contradiction|]. split; [intros _ _; left; exact HT|]. split; [intros; discriminate|]. intros; contradiction.
      + destruct (Z.eqb_spec n 0) as [K|_]; [lia|]. split; [discriminate|]. intros r' K. injection K as <-. split; [|split; [intros K; contradiction|split; [intros; discriminate|]]].
        * intros _. exists j, d, n. split; [exact H1|]. split; [rewrite one_same by exact Hn; reflexivity|]. discriminate.
        * intros p' n' os2 i m d' u' x K _ K1 K2 Hx. injection K as <- <- _. exact (H4 i m d' u' x K1 K2 Hx).
    - intros ->. split; [intros _; left; reflexivity|]. intros r' K. discriminate.
  Qed.
  Lemma answer_ptrs v : optrs (answer v) = vptr v.
  Proof. destruct v as [[r n]|]; reflexivity. Qed.
  Lemma good_free_find l p v : jok e y O t c (KFreeFind l p v) s0 O0 -> GoodP (KFreeFind l p v).
  Proof.
    intros (J1 & J2 & J3). unfold GoodP, Good. cbn [piece]. destruct (Z.eqb_spec p 0) as [Ep|Np].
    - eapply runs_ok; [reflexivity|]. exists O, []. split; [|exact (answer_result y O p v J3)]. apply (stepped_act _ _ _ _ _ _ _ _ _ _ _ (act_refl e y O S)); rewrite ?answer_ptrs; cbn [ptrs].
      + intros j b _ [].
      + intros j b _ [].
      + intros j b H _ [K|K]; [apply held_pos in H; lia|exact K].
      + intros q K _. left. right. exact K.
      + reflexivity.
      + intros j c0 r0 ev [].
    - destruct J2 as [K|(i & n & d & H)]; [contradiction|]. destruct (look_held _ _ _ _ _ S H) as (rb & y' & E & A & Q & Y & T & E0 & EF). cbn [bp] in E. rewrite E. cbn [rbind]. rewrite E0, EF. cbn [rbind].
      eapply runs_ok; [reflexivity|]. exists O, []. assert (KP : Kept y O y' O t (fun _ => True)) by (apply (act_kept _ _ _ _ _ _ _ _ _ _ A); [rewrite T; reflexivity|intros q _ []]). split.
      + apply stepped_quiet; [exact A|reflexivity|intros t' _; rewrite T; reflexivity|intros j c0 r0 ev []].
      + cbn [follows jok]. split; [exists n, d; apply (kept_holds e y O y' O t (fun _ => True) S KP); [exact H|exact Logic.I]|]. split.
        * intros K. apply orb_true_iff in K as [K|K]; [left; exact K|]. right. apply Nat.eqb_eq in K. rewrite T, K. exact J1.
        * apply (kept_vok y O y' O t (fun _ => True) KP); [exact J3|auto].
  Qed.
  Lemma good_free_do i b p v : jok e y O t c (KFreeDo i b p v) s0 O0 -> GoodP (KFreeDo i b p v).
  Proof.
    intros ((n & d & H) & J2 & J3). unfold GoodP, Good. cbn [piece]. pose proof H as ((k & Hk) & Hl & Hr). cbn [bp] in Hr. set (cc := if b then OFree p else ORemote p).
    assert (CV : cvalid e y O no_os i k cc).
    { unfold cc. destruct b; (split; [exact Logic.I|split; [|split; [intros z _ K; discriminate|intros _ q ->; exact Hr]]]); [right; eauto|exists n, d; exact Hl]. }
    assert (CA : asks cc = None) by (unfold cc; destruct b; reflexivity). assert (NR : forall h n gr, cc <> ORealloc h 0 n gr) by (intros; unfold cc; destruct b; discriminate).
    assert (NA : kdes k = true -> i <> 0%nat -> forall d n gr, cc <> OAlloc d n gr) by (intros; unfold cc; destruct b; discriminate).
    assert (EX : exclusive y t i cc) by (unfold cc; destruct b; [exact (mine_excl y t i _ (J2 eq_refl))|right; right; eauto]).
    apply (runs_bind _ (fun _ x => let '(_, y') := x in Ok (answer v, y')) _ _ (runs_chain e y O no_os i k cc S Hk CV NR NA)). intros (r & y') (O' & c' & y1 & O1 & s' & u & C).
    destruct (d_ask _ _ _ _ _ _ _ _ _ _ _ (h_call _ _ _ _ _ _ _ _ _ _ _ _ _ _ _ C) (or_introl CA)) as (-> & _). pose proof (h_act _ _ _ _ _ _ _ _ _ _ _ _ _ _ _ C) as A0.
    assert (A : Act e y O y' O' (atT p) noN (u ++ [TCall i cc r (sevs s')])).
    { apply (act_sub _ _ _ _ _ _ _ _ _ _ A0); unfold cc; destruct b; cbn [target new_blk]; try (intros q K; exact K); try (intros j b' _ K; exact K); intros j b' _ (_ & []). }
    eapply runs_ok; [reflexivity|]. exists O'. eexists. split.
    - apply (stepped_act _ _ _ _ _ _ _ _ _ _ _ A); rewrite ?answer_ptrs; cbn [ptrs].
      + intros j b' _ K. left. symmetry. exact K.
      + intros j b' _ [].
      + intros j b' _ K1 [K|K]; [exfalso; apply K1; symmetry; exact K|exact K].
      + intros q K _. left. right. exact K.
      + intros t' _. rewrite (h_tls _ _ _ _ _ _ _ _ _ _ _ _ _ _ _ C). reflexivity.
      + intros j c0 r0 ev K. apply in_app_iff in K as [K|[K|[]]]; [exact (after_excl e y O t _ i k _ u S (h_after _ _ _ _ _ _ _ _ _ _ _ _ _ _ _ C) j c0 r0 ev K)|]. injection K as <- <- _ _. split; [exact EX|unfold cc; destruct b; discriminate].
    - cbn [follows]. apply (answer_result y' O' p v). destruct v as [[r1 n1]|]; [|exact J3].
      pose proof J3 as (os' & K1 & K2 & K3). destruct K3 as [K3|[K3|K3]].
      + exists os'. split; [exact K1|]. split; [exact K2|]. left. exact K3.
      + exists os'. split; [exact K1|]. split; [exact K2|]. right. left. rewrite (h_tls _ _ _ _ _ _ _ _ _ _ _ _ _ _ _ C). exact K3.
      + apply (kept_vok y O y' O' t (fun q => ~ atT p q)); [|exact J3|].
        * apply (act_kept _ _ _ _ _ _ _ _ _ _ A); [rewrite (h_tls _ _ _ _ _ _ _ _ _ _ _ _ _ _ _ C); reflexivity|auto].
        * intros q [<-|[]]. unfold atT. exact (proj1 (proj2 (proj2 K3))).
  Qed.

  (** realloc. *)
  Lemma good_realloc_find l p n : jok e y O t c (KReallocFind l p n) s0 O0 -> GoodP (KReallocFind l p n).
  Proof.
    intros (J1 & J2 & (i & J3) & J4). unfold GoodP, Good. cbn [piece]. pose proof J3 as (m & d & w & H & _).
    destruct (look_held _ _ _ _ _ S H) as (rb & y' & E & A & Q & Y & T & E0 & EF). cbn [bp] in E. rewrite E. cbn [rbind]. rewrite E0, EF. cbn [rbind].
    eapply runs_ok; [reflexivity|]. exists O, []. assert (KP : Kept y O y' O t (fun _ => True)) by (apply (act_kept _ _ _ _ _ _ _ _ _ _ A); [rewrite T; reflexivity|intros q _ []]).
    assert (J3' : rok y' O p i s0 O0) by (apply (kept_rok y O y' O t (fun _ => True) KP); [exact J3|exact Logic.I]).
    destruct (Nat.eqb i l || is_shared y' i) eqn:EB.
    - split; [apply stepped_quiet; [exact A|reflexivity|intros t' _; rewrite T; reflexivity|intros j c0 r0 ev []]|]. cbn [follows jok]. split; [exists l; rewrite T; exact J1|]. split; [|split; [exact J2|split; [exact J3'|exact J4]]].
      apply orb_true_iff in EB as [K|K]; [right; apply Nat.eqb_eq in K; rewrite T, K; exact J1|left; exact K].
    - split; [apply stepped_quiet; [exact A|reflexivity|intros t' _; rewrite T; reflexivity|intros j c0 r0 ev []]|]. cbn [follows jok]. destruct J2 as (G1 & G2 & G3). split; [lia|]. split; [rewrite one_same by exact G1; exact G3|].
      split; [reflexivity|]. split; [exact G1|]. split; [exact J3'|]. split; [rewrite T, J1; discriminate|exact J4].
  Qed.
  Lemma good_realloc_do i p n : os_ok e y os (ask_size (ehook e n) n) -> jok e y O t c (KReallocDo i p n) s0 O0 -> GoodP (KReallocDo i p n).
  Proof.
    intros HO ((l & J1) & J2 & (G1 & G2 & G3) & J4 & (os' & J5)). unfold GoodP, Good. cbn [piece]. pose proof J4 as (m & d & w & R1 & R2 & R3 & R4 & R5 & R6).
    pose proof R1 as ((k & Hk) & Hl & Hr). cbn [bp] in Hr. pose proof (held_pos _ _ R1) as Hp. cbn [bp] in Hp.
    assert (HA : ask_ok e y (ehook e n) n os) by (destruct G3 as (A1 & A2 & A3 & A4); split; [exact A1|split; [exact A2|split; [exact A3|split; [exact A4|exact HO]]]]).
    assert (CF : cfactor (kg k) = efac e).
    { pose proof (sinv_cor _ _ _ S) as Co. destruct (Nat.eq_dec i 0) as [Ei|Ni]; [destruct (kg_cases _ _ _ _ _ Co Hk) as (_ & _ & _ & EG); rewrite (EG Ei); reflexivity|destruct (c_cfg _ _ _ Co i k Hk Ni) as (K & _); rewrite K; reflexivity]. }
    assert (CV : cvalid e y O os i k (ORealloc (ehook e n) p n None)).
    { split; [exact Logic.I|]. split; [split; [right; exists m, d; split; [exact Hl|exact R2]|split; [exact (ask_request _ _ _ _ _ _ _ HA)|rewrite CF; exact G2]]|]. split.
      - intros z _ K. cbn [asks] in K. destruct (n =? 0); [discriminate|]. injection K as <-. apply HA.
      - intros _ q ->. exact Hr. }
    assert (NP : forall h n0 gr, ORealloc (ehook e n) p n None <> ORealloc h 0 n0 gr) by (intros ? ? ? K; injection K as _ K _ _; lia).
    pose proof (runs_both _ _ _ (runs_rechain e y O os i k p n m d l t S Hk R1 R2 G2 G1 J1 HA) (runs_chain e y O os i k _ S Hk CV NP ltac:(discriminate))) as RB.
    apply (runs_bind _ (fun _ x => let '(r, y') := x in Ok (Ret 0 (Some r), y')) _ _ RB). intros (r & y') ((O' & tr & M) & (O2 & c' & y1 & O1 & s' & u & C)).
    eapply runs_ok; [reflexivity|]. destruct (mv_act _ _ _ _ _ _ _ _ _ _ _ M) as (l' & A & MT & M0 & ML). exists O', tr.
    assert (TT : ytls y' = ytls y) by exact (h_tls _ _ _ _ _ _ _ _ _ _ _ _ _ _ _ C).
    assert (ETR : tr = u ++ [TCall i c' r (sevs s')]).
    { apply (app_inv_tail (ytr y)). rewrite <- (a_tr _ _ _ _ _ _ _ _ A). exact (a_tr _ _ _ _ _ _ _ _ (h_act _ _ _ _ _ _ _ _ _ _ _ _ _ _ _ C)). }
    split.
    - apply (stepped_act _ _ _ _ _ _ _ _ _ _ _ A); cbn [ptrs optrs].
      + intros j b _ K. left. symmetry. exact K.
      + intros j b _ (_ & Nr & d' & ->). left. reflexivity.
      + intros j b _ K [K1|[]]. exfalso. apply K. symmetry. exact K1.
      + intros q [<-|[]] Nr. destruct (Z.eq_dec r p) as [->|N]; [left; left; reflexivity|]. right. exact (mv_fresh _ _ _ _ _ _ _ _ _ _ _ M Nr N).
      + intros t' _. rewrite TT. reflexivity.
      + intros j c0 r0 ev K. rewrite ETR in K. apply in_app_iff in K as [K|[K|[]]]; [exact (after_excl e y O t _ i k _ u S (h_after _ _ _ _ _ _ _ _ _ _ _ _ _ _ _ C) j c0 r0 ev K)|].
        injection K as <- <- _ _. split; [exact (mine_excl y t i _ J2)|]. destruct (d_op _ _ _ _ _ _ _ _ _ _ _ (h_call _ _ _ _ _ _ _ _ _ _ _ _ _ _ _ C)) as [->|(_ & bb & ->)]; discriminate.
    - cbn [follows]. rewrite J5. unfold result; cbn [gives aligned]. destruct (Z.eqb_spec p 0) as [K|_]; [lia|]. cbn [negb andb]. destruct (Z.eqb_spec n 0) as [K|_]; [lia|].
      split; [discriminate|]. intros r' K. injection K as <-. split; [|split; [|split; [intros; discriminate|]]].
      + intros Nr. destruct (mv_held _ _ _ _ _ _ _ _ _ _ _ M Nr) as (j & d' & K). exists j, d', n. split; [exact K|]. split; [rewrite one_same by exact G1; reflexivity|]. discriminate.
      + intros Er _. destruct (M0 Er) as [->|El].
        * right. exists p, n, os', m, d. split; [reflexivity|exact R4].
        * left. rewrite TT. exact (ML El).
      + intros p' n' os2 i' m' d' u' x K Nr K1 K2 Hx. injection K as <- <- _. destruct (held_unique _ _ _ _ _ _ _ S0 K1 R4 eq_refl) as (-> & _). pose proof (size_eq _ _ _ _ _ K2 R5) as ->.
        rewrite (mv_data _ _ _ _ _ _ _ _ _ _ _ M Nr w x R3 Hx). apply R6. lia.
  Qed.

  (** The exit of a thread. *)
  Lemma good_exit : jok e y O t c KExit s0 O0 -> GoodP KExit.
  Proof.
    intros J. cbn [jok] in J. unfold GoodP, Good. cbn [piece]. destruct (ytls y t) as [i|] eqn:E.
    - destruct (c_tls _ _ _ (sinv_cor _ _ _ S) t i E) as (k & Hk & Hd). rewrite Hk. eapply runs_ok; [reflexivity|]. exists O, []. pose proof (exited_ok e y O t i k S E Hk) as [F1 F2 F3 F4].
      split.
      + constructor.
        * exact F1.
        * intros j b u H _ U. exact (F3 j b u H (fun K => K) U).
        * intros j b H. destruct (F4 j b H) as [(K & _)|[]]. left. exact K.
        * intros j b _ [].
        * intros q [].
        * intros t' N. cbn [put_chain yset_tls ytls]. apply other_tls. exact N.
        * right. split; [reflexivity|]. exists i, k. split; [exact E|]. split; [exact Hk|]. split; [reflexivity|]. split; reflexivity.
        * reflexivity.
        * reflexivity.
        * intros j c0 r0 ev [].
      + cbn [follows jok]. split; [exact J|]. pose proof (mk_same (yset_tls y t (Some 0%nat)) i k Hk) as K. unfold mark in K. split; [exact (chain_lt _ _ _ K)|]. right. unfold is_shared. rewrite K. reflexivity.
    - eapply runs_ok; [reflexivity|]. exists O, []. split; [apply stepped_quiet; [exact (act_refl e y O S)|reflexivity|reflexivity|intros j c0 r0 ev []]|].
      cbn [follows]. rewrite J. split; [intros _; left; reflexivity|]. intros r' K. discriminate.
  Qed.
  Lemma good_exit_purge i : chain y i <> None -> jok e y O t c (KExitPurge i) s0 O0 -> GoodP (KExitPurge i).
  Proof.
    intros NC (J1 & J2 & J3). unfold GoodP, Good. cbn [piece]. destruct (chain y i) as [k|] eqn:Hk; [|contradiction]. destruct J3 as [J3|J3]; [discriminate|].
    apply (runs_bind _ (fun _ x => let '(_, y') := x in Ok (Ret 0 None, y')) _ _ (runs_chain e y O no_os i k OPurge S Hk (purge_valid e y O i k) ltac:(discriminate) ltac:(discriminate))).
    intros (r & y') (O' & c' & y1 & O1 & s' & u & C). destruct (d_ask _ _ _ _ _ _ _ _ _ _ _ (h_call _ _ _ _ _ _ _ _ _ _ _ _ _ _ _ C) (or_introl eq_refl)) as (-> & _).
    pose proof (h_act _ _ _ _ _ _ _ _ _ _ _ _ _ _ _ C) as A0.
    assert (A : Act e y O y' O' noT noN (u ++ [TCall i OPurge r (sevs s')])).
    { apply (act_sub _ _ _ _ _ _ _ _ _ _ A0); cbn [target new_blk]; [intros q []|intros j b _ []|intros j b _ (_ & [])]. }
    eapply runs_ok; [reflexivity|]. exists O'. eexists. split.
    - apply stepped_quiet; [exact A|reflexivity|intros t' _; rewrite (h_tls _ _ _ _ _ _ _ _ _ _ _ _ _ _ _ C); reflexivity|].
      intros j c0 r0 ev K. apply in_app_iff in K as [K|[K|[]]]; [exact (after_excl e y O t _ i k _ u S (h_after _ _ _ _ _ _ _ _ _ _ _ _ _ _ _ C) j c0 r0 ev K)|]. injection K as <- <- _ _. split; [left; exact J3|intros _; right; reflexivity].
    - cbn [follows]. rewrite J1. split; [intros _; left; reflexivity|]. intros r' K. discriminate.
  Qed.

  Lemma piece_ok k : jok e y O t c k s0 O0 -> goes e y O t os k ->
    Runs (fun f => piece f e os t k y) (fun '(o, y') => exists O' tr, Stepped e y O t k o y' O' tr /\ follows e y' O' t c o s0 O0).
  Proof.
    intros J H. destruct k as [d n a|l d n a|l d n a|r z n|i p r n|p v|l p v|l p v|i b p v|p n|l p n|i p n| |i]; cbn [goes] in H.
    - exact (good_alloc d n a H J).
    - exact (good_alloc_purge l d n a J).
    - exact (good_alloc_do l d n a H J).
    - exact (good_zero r z n J).
    - exact (good_copy i p r n J).
    - exact (good_free p v H J).
    - exact (good_free_purge l p v J).
    - exact (good_free_find l p v J).
    - exact (good_free_do i b p v J).
    - exact (good_realloc p n H J).
    - exact (good_realloc_find l p n J).
    - exact (good_realloc_do i p n H J).
    - exact (good_exit J).
    - exact (good_exit_purge i H J).
  Qed.
End Pieces.
