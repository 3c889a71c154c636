(** Every execution with store buffers is followed by an execution of the sequentially consistent queue of MpscfModel.v in which a
    store takes place when it reaches memory. *)
From Verif Require Import MpscfModel MpscfSpec MpscfProofs MpscfProps TsoModel TsoSpec.
From Coq Require Import ZArith List Bool Lia.
Import ListNotations.
Open Scope Z_scope.

Lemma who_eqb_spec : forall a b, reflect (a = b) (who_eqb a b).
Proof.
  intros [|t] [|u]; cbn; try (constructor; congruence). destruct (Nat.eqb_spec t u); constructor; congruence.
Qed.
Lemma who_eqb_refl : forall a, who_eqb a a = true.
Proof. intros a. destruct (who_eqb_spec a a); congruence. Qed.
Lemma updw_same : forall f w b, updw f w b w = b.
Proof. intros. unfold updw. rewrite who_eqb_refl. reflexivity. Qed.
Lemma updw_other : forall f w u b, u <> w -> updw f w b u = f u.
Proof. intros f w u b H. unfold updw. destruct (who_eqb_spec u w); congruence. Qed.
Lemma updl_same : forall f a p, updl f a p a = p.
Proof. intros. unfold updl. rewrite Z.eqb_refl. reflexivity. Qed.
Lemma updl_other : forall f a p x, x <> a -> updl f a p x = f x.
Proof. intros f a p x H. unfold updl. destruct (Z.eqb_spec x a); congruence. Qed.

(** ** Buffers and positions *)
(** Where the sequentially consistent producer goes when a store of its buffer reaches memory. *)
Definition adv (p : ppc) (x : wr) : option ppc :=
  match x with
  | WN _ _ | WP _ _ | WGive _ _ => match p with PIdle => Some PIdle | _ => None end
  | SPay e v => match p with PIdle => Some (PNext1 e v) | _ => None end
  | SNext a v =>
      match p with
      | PNext1 e w => if (a =? e) && (v =? 0) then Some (PNext2 e w) else None
      | PNext2 e w => if (a =? e) && (v =? 0) then Some (PSwap e w) else None
      | PLink e q => if (a =? q) && (v =? e) && negb (q =? 0) then Some PIdle else None
      | _ => None
      end
  | SHead v => match p with PLink e q => if (q =? 0) && (v =? e) then Some PIdle else None | _ => None end
  end.
Fixpoint advs (p : ppc) (b : list wr) : option ppc :=
  match b with [] => Some p | x :: r => match adv p x with Some q => advs q r | None => None end end.
Definition advc (c : cpc) (x : wr) : option cpc :=
  match x with
  | WN _ _ | WP _ _ | WGive _ _ => Some c
  | SHead v => match c with CClear h => if v =? 0 then Some (CSwap h) else None | _ => None end
  | _ => None
  end.
Fixpoint advcs (c : cpc) (b : list wr) : option cpc :=
  match b with [] => Some c | x :: r => match advc c x with Some q => advcs q r | None => None end end.

Lemma advs_snoc : forall b p q x r, advs p b = Some q -> adv q x = Some r -> advs p (b ++ [x]) = Some r.
Proof.
  induction b as [|y b IH]; intros p q x r H E; cbn in *; [injection H as ->; rewrite E; reflexivity|].
  destruct (adv p y) as [p'|]; [|discriminate]. exact (IH p' q x r H E).
Qed.
Lemma advcs_snoc : forall b p q x r, advcs p b = Some q -> advc q x = Some r -> advcs p (b ++ [x]) = Some r.
Proof.
  induction b as [|y b IH]; intros p q x r H E; cbn in *; [injection H as ->; rewrite E; reflexivity|].
  destruct (advc p y) as [p'|]; [|discriminate]. exact (IH p' q x r H E).
Qed.

(** The position of a producer whose first store is not in the buffer yet is the idle one. *)
Definition lagged (p : ppc) : ppc := match p with PPay _ _ => PIdle | _ => p end.

(** The block a store of the program, or the beginning of a call, speaks about. *)
Definition about (x : wr) : option Z :=
  match x with SPay a _ | WN a _ | WP a _ | WGive a _ => Some a | _ => None end.
Definition ment (a : Z) (b : list wr) : Prop := exists x, In x b /\ about x = Some a.
Definition leaves (x : wr) : bool := match x with SPay _ _ | WGive _ _ => true | _ => false end.
Definition gone (a : Z) (b : list wr) : Prop := exists x, In x b /\ about x = Some a /\ leaves x = true.
(** A buffer of thread [w]: it speaks about blocks under the control of [w] only, and no more about a block that left. *)
Fixpoint okl (pl : Z -> place) (c : Z -> option who) (w : who) (b : list wr) : Prop :=
  match b with
  | [] => True
  | x :: r =>
      (forall a, about x = Some a -> c a = Some w) /\
      (forall a, about x = Some a -> leaves x = true -> ~ ment a r) /\
      (match x with SPay a _ => pl a = InQ /\ a <> 0 | WGive a _ => pl a = Passing | _ => True end) /\
      okl pl c w r
  end.

Record Sim (s : tst) (q : qst) (c : Z -> option who) : Prop := {
  m_n : forall a, nxt q a = tn s a;
  m_p : forall a, pay q a = tp s a;
  m_hd : qhd q = thd s;
  m_tl : qtl q = ttl s;
  m_prd : forall t, advs (prd q t) (tbuf s (Thr t)) = Some (lagged (tpc s t));
  m_cns : advcs (cns q) (tbuf s Owner) = Some (tcs s);
  m_busy : forall a, busy q a = true <-> c a = None;
  m_held : forall a w, tpl s a = Held w -> c a = Some w /\ ~ gone a (tbuf s w);
  m_inq : forall a, c a = None -> tpl s a = InQ;
  m_pay : forall t e v, tpc s t = PPay e v -> e <> 0 /\ tpl s e = InQ /\ c e = Some (Thr t) /\ ~ gone e (tbuf s (Thr t));
  m_buf : forall w, okl (tpl s) c w (tbuf s w);
  m_bad : tbad s = false;
  m_pubs : pubs (ttr s) = pubs (tr q);
  m_dels : dels (ttr s) = dels (tr q) }.

Lemma ment_cons : forall a x b, ment a (x :: b) <-> about x = Some a \/ ment a b.
Proof.
  intros a x b. split.
  - intros (y & [->|I] & E); [left; exact E|right; exists y; auto].
  - intros [E|(y & I & E)]; [exists x|exists y]; cbn; auto.
Qed.
Lemma gone_cons : forall a x b, gone a (x :: b) <-> (about x = Some a /\ leaves x = true) \/ gone a b.
Proof.
  intros a x b. split.
  - intros (y & [->|I] & E); [left; exact E|right; exists y; auto].
  - intros [E|(y & I & E)]; [exists x|exists y]; cbn; auto.
Qed.
Lemma gone_ment : forall a b, gone a b -> ment a b.
Proof. intros a b (x & I & E & _). exists x. auto. Qed.
Lemma okl_ment : forall pl c w b a, okl pl c w b -> ment a b -> c a = Some w.
Proof.
  induction b as [|x b IH]; intros a O (y & I & E); [destruct I|]. destruct O as (O1 & O2 & O3 & O4). destruct I as [->|I].
  - exact (O1 a E).
  - apply (IH a O4). exists y. auto.
Qed.
(** Changing the control of blocks the buffer does not speak about, and the place of blocks that do not leave. *)
Lemma okl_ext : forall pl pl' c c' w b, (forall a, ment a b -> c' a = c a) -> (forall a, gone a b -> pl' a = pl a) ->
  okl pl c w b -> okl pl' c' w b.
Proof.
  induction b as [|x b IH]; intros E F O; [exact Logic.I|]. destruct O as (O1 & O2 & O3 & O4). cbn. split; [|split; [|split]].
  - intros a A. rewrite (E a (proj2 (ment_cons a x b) (or_introl A))). exact (O1 a A).
  - exact O2.
  - destruct x as [a v|a v|v|a v|a v|a u]; auto;
      (assert (X : pl' a = pl a) by (apply F; apply gone_cons; left; split; reflexivity); rewrite X; exact O3).
  - apply IH; [| |exact O4].
    + intros a M. apply E. apply ment_cons. right. exact M.
    + intros a M. apply F. apply gone_cons. right. exact M.
Qed.
Lemma okl_snoc : forall pl c w b x, okl pl c w b ->
  (forall a, about x = Some a -> c a = Some w /\ ~ gone a b) ->
  (match x with SPay a _ => pl a = InQ /\ a <> 0 | WGive a _ => pl a = Passing | _ => True end) -> okl pl c w (b ++ [x]).
Proof.
  induction b as [|y b IH]; intros x O A P.
  - cbn. split; [intros a E; exact (proj1 (A a E))|]. split; [intros a _ _ (z & [] & _)|]. auto.
  - destruct O as (O1 & O2 & O3 & O4). cbn. split; [exact O1|]. split; [|split; [exact O3|]].
    + intros a E L (z & I & Z1). apply in_app_or in I. destruct I as [I|[<-|[]]].
      * apply (O2 a E L). exists z. auto.
      * destruct (A a Z1) as [_ G]. apply G. exists y. cbn. auto.
    + apply IH; [exact O4| |exact P]. intros a E. destruct (A a E) as [A1 A2]. split; [exact A1|]. intros G. apply A2.
      apply gone_cons. right. exact G.
Qed.
Lemma gone_snoc : forall a b x, gone a (b ++ [x]) -> gone a b \/ (about x = Some a /\ leaves x = true).
Proof.
  intros a b x (y & I & E). apply in_app_or in I. destruct I as [I|[<-|[]]]; [left; exists y; auto|right; exact E].
Qed.

Lemma sim0 : forall n p h, Sim (t0 n p h) (q0 n p) (fun a => Some (h a)).
Proof.
  intros n p h. constructor; cbn; auto; try discriminate.
  - intros a. split; discriminate.
  - intros a w E. injection E as <-. split; [reflexivity|]. intros (x & [] & _).
Qed.

(** Loads of the owner see memory for the blocks of the queue. *)
Lemma advcs_no_queue : forall b c c', advcs c b = Some c' -> forall x, In x b -> match x with SPay _ _ | SNext _ _ => False | _ => True end.
Proof.
  induction b as [|y b IH]; intros c c' H x I; [destruct I|]. cbn in H. destruct (advc c y) as [d|] eqn:E; [|discriminate].
  destruct I as [<-|I]; [|exact (IH d c' H x I)]. destruct y; cbn in E; auto; discriminate.
Qed.
Lemma ldn_mem : forall b a m, ~ ment a b -> (forall x, In x b -> match x with SPay _ _ | SNext _ _ => False | _ => True end) -> ldn b a m = m.
Proof.
  induction b as [|x b IH]; intros a m M N; [reflexivity|].
  assert (M2 : ~ ment a b) by (intros X; apply M; apply ment_cons; right; exact X).
  assert (N2 : forall y, In y b -> match y with SPay _ _ | SNext _ _ => False | _ => True end) by (intros y I; apply N; right; exact I).
  pose proof (N x (or_introl eq_refl)) as N1. destruct x as [y v|y v|v|y v|y v|y u]; cbn in *; try contradiction; try exact (IH a m M2 N2).
  destruct (Z.eqb_spec y a) as [->|_]; [|exact (IH a m M2 N2)]. exfalso. apply M. apply ment_cons. left. reflexivity.
Qed.
Lemma ldp_mem : forall b a m, ~ ment a b -> ldp b a m = m.
Proof.
  induction b as [|x b IH]; intros a m M; [reflexivity|].
  assert (M2 : ~ ment a b) by (intros X; apply M; apply ment_cons; right; exact X).
  destruct x as [y v|y v|v|y v|y v|y u]; cbn in *; try exact (IH a m M2);
    (destruct (Z.eqb_spec y a) as [->|_]; [|exact (IH a m M2)]; exfalso; apply M; apply ment_cons; left; reflexivity).
Qed.
Lemma advcs_same : forall b c c', advcs c b = Some c' -> (forall h, c' <> CSwap h) -> c = c' /\ forall m, ldh b m = m.
Proof.
  induction b as [|x b IH]; intros c c' H N; cbn in *; [injection H as ->; auto|].
  destruct (advc c x) as [d|] eqn:E; [|discriminate]. destruct (IH d c' H N) as [-> H2].
  destruct x as [y v|y v|v|y v|y v|y u]; cbn in E; try discriminate; try (injection E as ->; auto).
  destruct c; try discriminate. destruct (v =? 0); [|discriminate]. injection E as <-. exfalso. exact (N h eq_refl).
Qed.

Lemma reach_step : forall q a q', reach q -> step q a = Some q' -> reach q'.
Proof.
  intros q a q' (n & p & l & X) E. exists n, p, (l ++ [a]). apply (exec_app _ _ q _ _ X).
  exact (exec_cons q a q' [] q' E (exec_nil q')).
Qed.

(** ** A store enters a buffer *)
Lemma sim_push : forall s q c s' w x, Sim s q c ->
  tn s' = tn s -> tp s' = tp s -> thd s' = thd s -> ttl s' = ttl s ->
  tbuf s' = updw (tbuf s) w (tbuf s w ++ [x]) ->
  (forall t, w = Thr t -> adv (lagged (tpc s t)) x = Some (lagged (tpc s' t))) ->
  (forall t, w <> Thr t -> tpc s' t = tpc s t) ->
  (w = Owner -> advc (tcs s) x = Some (tcs s')) -> (w <> Owner -> tcs s' = tcs s) ->
  (forall a, about x <> Some a -> tpl s' a = tpl s a) ->
  (forall a, about x = Some a -> c a = Some w /\ ~ gone a (tbuf s w)) ->
  (forall a u, about x = Some a -> tpl s' a = Held u -> tpl s a = Held u /\ leaves x = false) ->
  (match x with SPay a _ => tpl s' a = InQ /\ a <> 0 | WGive a _ => tpl s' a = Passing | _ => True end) ->
  (forall t e v, w = Thr t -> tpc s' t <> PPay e v) ->
  tbad s' = tbad s -> pubs (ttr s') = pubs (ttr s) -> dels (ttr s') = dels (ttr s) -> Sim s' q c.
Proof.
  intros s q c s' w x M N P H T B A1 A2 C1 C2 L1 L2 L3 L4 NP BD TP TD.
  assert (AB : forall a, about x = Some a \/ about x <> Some a).
  { intros a. destruct (about x) as [y|]; [|right; discriminate]. destruct (Z.eq_dec y a); [left|right]; congruence. }
  constructor; rewrite ?N, ?P, ?H, ?T, ?BD, ?TP, ?TD; try apply M.
  - intros t. rewrite B. destruct (who_eqb_spec (Thr t) w) as [E|E].
    + rewrite <- E, updw_same. apply (advs_snoc _ _ (lagged (tpc s t))); [apply M|]. apply A1. symmetry. exact E.
    + rewrite (updw_other _ _ _ _ E). rewrite (A2 t (fun X => E (eq_sym X))). apply M.
  - rewrite B. destruct (who_eqb_spec Owner w) as [E|E].
    + rewrite <- E, updw_same. apply (advcs_snoc _ _ (tcs s)); [apply M|]. apply C1. symmetry. exact E.
    + rewrite (updw_other _ _ _ _ E). rewrite (C2 (fun X => E (eq_sym X))). apply M.
  - intros a u E. destruct (AB a) as [X|X].
    + destruct (L3 a u X E) as [E2 LV]. destruct (m_held _ _ _ M a u E2) as [H1 H2]. split; [exact H1|]. rewrite B.
      destruct (who_eqb_spec u w) as [->|NE]; [rewrite updw_same|rewrite (updw_other _ _ _ _ NE); exact H2].
      intros G. apply gone_snoc in G. destruct G as [G|[_ G]]; [exact (H2 G)|congruence].
    + rewrite (L1 a X) in E. destruct (m_held _ _ _ M a u E) as [H1 H2]. split; [exact H1|]. rewrite B.
      destruct (who_eqb_spec u w) as [->|NE]; [rewrite updw_same|rewrite (updw_other _ _ _ _ NE); exact H2].
      intros G. apply gone_snoc in G. destruct G as [G|[G _]]; [exact (H2 G)|congruence].
  - intros a E. destruct (AB a) as [X|X]; [destruct (L2 a X); congruence|]. rewrite (L1 a X). apply M. exact E.
  - intros t e v E. destruct (who_eqb_spec (Thr t) w) as [X|X]; [exfalso; exact (NP t e v (eq_sym X) E)|].
    rewrite (A2 t (fun Y => X (eq_sym Y))) in E. destruct (m_pay _ _ _ M t e v E) as (P1 & P2 & P3 & P4).
    destruct (AB e) as [Y|Y]; [destruct (L2 e Y); congruence|]. rewrite (L1 e Y), B, (updw_other _ _ _ _ X). auto.
  - intros u. rewrite B. destruct (who_eqb_spec u w) as [->|NE].
    + rewrite updw_same. apply okl_snoc; [|exact L2|exact L4]. apply (okl_ext (tpl s) _ c); [reflexivity| |apply M].
      intros a G. destruct (AB a) as [X|X]; [exfalso; exact (proj2 (L2 a X) G)|exact (L1 a X)].
    + rewrite (updw_other _ _ _ _ NE). apply (okl_ext (tpl s) _ c); [reflexivity| |apply M].
      intros a G. destruct (AB a) as [X|X]; [|exact (L1 a X)]. exfalso.
      pose proof (okl_ment _ _ _ _ a (m_buf _ _ _ M u) (gone_ment _ _ G)) as Y. destruct (L2 a X) as [Z1 _]. congruence.
Qed.

Lemma pubs_snoc_other : forall l e, (forall t a v, e <> EPub t a v) -> pubs (l ++ [e]) = pubs l.
Proof. intros l e H. rewrite pubs_app. destruct e as [t a v|t a v|t|a v]; cbn; rewrite ?app_nil_r; auto. exfalso. exact (H t a v eq_refl). Qed.
Lemma dels_snoc_other : forall l e, (forall a v, e <> EDel a v) -> dels (l ++ [e]) = dels l.
Proof. intros l e H. rewrite dels_app. destruct e as [t a v|t a v|t|a v]; cbn; rewrite ?app_nil_r; auto. exfalso. exact (H a v eq_refl). Qed.

Lemma sim_start : forall s q c t e v s', Sim s q c -> tstart s t e v = Some s' -> Sim s' q c.
Proof.
  intros s q c t e v s' M E. unfold tstart in E. destruct (tpc s t) eqn:Ep; try discriminate.
  destruct (tpl s e) as [[|u]| |] eqn:El; try discriminate. destruct (Z.eqb_spec e 0) as [|NZ]; [discriminate|].
  destruct (Nat.eqb_spec u t) as [->|]; [|discriminate]. cbn in E. injection E as <-.
  destruct (m_held _ _ _ M e _ El) as [H1 H2].
  constructor; cbn; try apply M.
  - intros u. destruct (Nat.eq_dec u t) as [->|NE].
    + rewrite updp_same. cbn. pose proof (m_prd _ _ _ M t) as X. rewrite Ep in X. exact X.
    + rewrite (updp_other _ _ _ _ NE). apply M.
  - intros a w. unfold updl. destruct (Z.eqb_spec a e) as [->|NE]; [discriminate|]. apply M.
  - intros a X. unfold updl. destruct (Z.eqb_spec a e); [reflexivity|]. apply M. exact X.
  - intros u a w. destruct (Nat.eq_dec u t) as [->|NE].
    + rewrite updp_same. intros X. injection X as <- <-. rewrite updl_same. auto.
    + rewrite (updp_other _ _ _ _ NE). intros X. destruct (m_pay _ _ _ M u a w X) as (P1 & P2 & P3 & P4).
      rewrite updl_other; [auto|]. congruence.
  - intros w. apply (okl_ext (tpl s) _ c); [reflexivity| |apply M]. intros a G. apply updl_other. intros ->.
    pose proof (okl_ment _ _ _ _ e (m_buf _ _ _ M w) (gone_ment _ _ G)) as Y. assert (w = Thr t) by congruence. subst w. exact (H2 G).
  - rewrite pubs_snoc_other; [apply M|discriminate].
  - rewrite dels_snoc_other; [apply M|discriminate].
Qed.

Lemma sim_go_push : forall s q c t s', Sim s q c -> tgo true s t = Some s' -> (forall e v, tpc s t <> PSwap e v) -> Sim s' q c.
Proof.
  intros s q c t s' M E NS. unfold tgo in E. destruct (tpc s t) as [|e v|e v|e v|e v|e p|] eqn:Ep; try discriminate.
  - injection E as <-. destruct (m_pay _ _ _ M t e v Ep) as (P1 & P2 & P3 & P4).
    apply (sim_push s q c _ (Thr t) (SPay e v) M); cbn; try reflexivity; try discriminate; auto.
    + intros u X. injection X as <-. rewrite Ep, updp_same. reflexivity.
    + intros u X. apply updp_other. congruence.
    + intros a X. injection X as <-. auto.
    + intros a u X Y. injection X as <-. congruence.
    + intros u a w X. injection X as <-. rewrite updp_same. discriminate.
  - injection E as <-. apply (sim_push s q c _ (Thr t) (SNext e 0) M); cbn; try reflexivity; try discriminate; auto.
    + intros u X. injection X as <-. rewrite Ep, updp_same. cbn. rewrite Z.eqb_refl. reflexivity.
    + intros u X. apply updp_other. congruence.
    + intros u a w X. injection X as <-. rewrite updp_same. discriminate.
  - injection E as <-. apply (sim_push s q c _ (Thr t) (SNext e 0) M); cbn; try reflexivity; try discriminate; auto.
    + intros u X. injection X as <-. rewrite Ep, updp_same. cbn. rewrite Z.eqb_refl. reflexivity.
    + intros u X. apply updp_other. congruence.
    + intros u a w X. injection X as <-. rewrite updp_same. discriminate.
  - exfalso. exact (NS e v eq_refl).
  - injection E as <-. apply (sim_push s q c _ (Thr t) (if p =? 0 then SHead e else SNext p e) M); cbn; try reflexivity; try discriminate; auto.
    + intros u X. injection X as <-. rewrite Ep, updp_same. cbn. destruct (Z.eqb_spec p 0) as [->|NZ]; cbn.
      * rewrite Z.eqb_refl. reflexivity.
      * rewrite !Z.eqb_refl. destruct (Z.eqb_spec p 0); [contradiction|]. reflexivity.
    + intros u X. apply updp_other. congruence.
    + intros a X. destruct (p =? 0); discriminate.
    + intros a u X. destruct (p =? 0); discriminate.
    + destruct (p =? 0); exact Logic.I.
    + intros u a w X. injection X as <-. rewrite updp_same. discriminate.
    + apply pubs_snoc_other. discriminate.
    + apply dels_snoc_other. discriminate.
Qed.

Lemma outside_thr : forall s t, outside s (Thr t) = true -> tpc s t = PIdle.
Proof. intros s t H. cbn in H. destruct (tpc s t); try discriminate. reflexivity. Qed.
Lemma holds_held : forall s w a, holds s w a = true -> tpl s a = Held w.
Proof. intros s w a H. unfold holds in H. destruct (tpl s a) as [u| |]; try discriminate. destruct (who_eqb_spec u w); congruence. Qed.

Lemma sim_write : forall s q c w a x pl', Sim s q c -> outside s w = true -> holds s w a = true ->
  (pl' = tpl s /\ (exists v, x = WN a v \/ x = WP a v)) \/ (exists u, x = WGive a u /\ pl' = updl (tpl s) a Passing) ->
  Sim (push (mkT (tn s) (tp s) (thd s) (ttl s) (tpc s) (tcs s) (tbuf s) pl' (tbad s) (ttr s)) w x) q c.
Proof.
  intros s q c w a x pl' M O H X. apply holds_held in H. destruct (m_held _ _ _ M a w H) as [H1 H2].
  assert (AX : about x = Some a) by (destruct X as [(_ & v & [->| ->])|(u & -> & _)]; reflexivity).
  assert (VX : forall c0, advc c0 x = Some c0) by (destruct X as [(_ & v & [->| ->])|(u & -> & _)]; reflexivity).
  assert (PX : adv PIdle x = Some PIdle) by (destruct X as [(_ & v & [->| ->])|(u & -> & _)]; reflexivity).
  apply (sim_push s q c _ w x M); cbn; try reflexivity; auto.
  - intros t ->. apply outside_thr in O. rewrite O. exact PX.
  - intros b NB. destruct X as [(-> & _)|(u & -> & ->)]; [reflexivity|]. apply updl_other. cbn in NB. congruence.
  - intros b E. assert (b = a) by congruence. subst b. auto.
  - intros b u E Y. assert (b = a) by congruence. subst b. destruct X as [(-> & v & [->| ->])|(u2 & -> & ->)]; auto.
    rewrite updl_same in Y. discriminate.
  - destruct X as [(_ & v & [->| ->])|(u & -> & ->)]; auto. apply updl_same.
  - intros t e v ->. apply outside_thr in O. rewrite O. discriminate.
Qed.

(** ** Swaps *)
Lemma sim_swap : forall s q c t e v s', Sim s q c -> tpc s t = PSwap e v -> tgo true s t = Some s' ->
  exists q', step q (Go t) = Some q' /\ Sim s' q' c.
Proof.
  intros s q c t e v s' M Ep E. unfold tgo in E. rewrite Ep in E. unfold drained in E.
  destruct (tbuf s (Thr t)) as [|x r] eqn:Eb; [|discriminate]. cbn in E. injection E as <-.
  pose proof (m_prd _ _ _ M t) as X. rewrite Eb, Ep in X. cbn in X. injection X as X.
  cbn [step]. unfold go. rewrite X. eexists. split; [reflexivity|].
  constructor; cbn; try apply M.
  - reflexivity.
  - intros u. destruct (Nat.eq_dec u t) as [->|NE].
    + rewrite !updp_same, Eb. cbn. rewrite (m_tl _ _ _ M). reflexivity.
    + rewrite !(updp_other _ _ _ _ NE). apply M.
  - intros u a w. destruct (Nat.eq_dec u t) as [->|NE]; [rewrite updp_same; discriminate|].
    rewrite (updp_other _ _ _ _ NE). apply M.
  - rewrite !pubs_app, (m_pubs _ _ _ M). reflexivity.
  - rewrite !dels_app, (m_dels _ _ _ M). reflexivity.
Qed.

(** ** The consumer *)
Lemma sim_cs : forall s q c x, Sim s q c -> tbuf s Owner = [] \/ (advcs x (tbuf s Owner) = Some x) -> Sim (t_cs s x) (set_cons q x) c.
Proof.
  intros s q c x M E. constructor; cbn; try apply M. destruct E as [E|E]; [rewrite E; reflexivity|exact E].
Qed.
(** A buffer of the owner that does not move it leaves any position in place. *)
Lemma advcs_still : forall b c c', advcs c b = Some c' -> (forall h, c' <> CSwap h) -> forall x, advcs x b = Some x.
Proof.
  induction b as [|y b IH]; intros c c' H N x; [reflexivity|]. cbn in H |- *. destruct (advc c y) as [d|] eqn:E; [|discriminate].
  destruct (advcs_same _ _ _ H N) as [-> _].
  destruct y as [a v|a v|v|a v|a v|a u]; cbn in E |- *; try discriminate; try exact (IH _ _ H N x).
  destruct c; try discriminate. destruct (v =? 0); [|discriminate]. injection E as <-. exfalso. exact (N h eq_refl).
Qed.

Lemma sim_inq : forall s q c a, Sim s q c -> busy q a = true -> in_q s a = true /\ rdn s Owner a = nxt q a /\ rdp s Owner a = pay q a.
Proof.
  intros s q c a M B. apply (m_busy _ _ _ M) in B. unfold in_q. rewrite (m_inq _ _ _ M a B).
  assert (NM : ~ ment a (tbuf s Owner)).
  { intros X. pose proof (okl_ment _ _ _ _ a (m_buf _ _ _ M Owner) X). congruence. }
  split; [reflexivity|]. unfold rdn, rdp. rewrite (m_n _ _ _ M), (m_p _ _ _ M). split.
  - apply ldn_mem; [exact NM|]. exact (advcs_no_queue _ _ _ (m_cns _ _ _ M)).
  - apply ldp_mem. exact NM.
Qed.

Lemma cons_alive : forall q q', reach q -> step q Cons = Some q' -> cns q' <> CBad.
Proof. intros q q' R E. exact (proj1 (never_bad q' (reach_step _ _ _ R E))). Qed.

Lemma sim_cons : forall s q c s', reach q -> Sim s q c -> tconsume true s = Some s' ->
  (exists q' c', step q Cons = Some q' /\ Sim s' q' c') \/ ((exists h, tcs s = CClear h) /\ Sim s' q c).
Proof.
  intros s q c s' R M E. pose proof (m_cns _ _ _ M) as MC. unfold tconsume in E.
  assert (NB : forall q', step q Cons = Some q' -> cns q' <> CBad) by (intros q' X; exact (cons_alive q q' R X)).
  destruct (tcs s) as [| |h|h|h t cur|h t cur|e|e n|] eqn:Ec.
  - left. destruct (advcs_same _ _ _ MC ltac:(discriminate)) as [Q HD]. pose proof (advcs_still _ _ _ MC ltac:(discriminate)) as ST.
    injection E as <-. cbn [step]. unfold consume. rewrite Q. eexists _, c. split; [reflexivity|].
    unfold rdh. rewrite HD, (m_hd _ _ _ M). apply (sim_cs s q c _ M). right. apply ST.
  - left. destruct (advcs_same _ _ _ MC ltac:(discriminate)) as [Q HD]. pose proof (advcs_still _ _ _ MC ltac:(discriminate)) as ST.
    injection E as <-. cbn [step]. unfold consume. rewrite Q. eexists _, c. split; [reflexivity|].
    unfold rdh. rewrite HD, (m_hd _ _ _ M). apply (sim_cs s q c _ M). right. apply ST.
  - right. injection E as <-. split; [eexists; reflexivity|].
    apply (sim_push s q c _ Owner (SHead 0) M); cbn; try reflexivity; try discriminate; auto.
    + intros _. rewrite Ec. reflexivity.
    + congruence.
  - left. unfold drained in E. destruct (tbuf s Owner) as [|x r] eqn:Eb; [|discriminate]. cbn in MC. injection MC as MC. cbn in E.
    injection E as <-. cbn [step]. unfold consume. rewrite MC. eexists _, c. split; [reflexivity|]. rewrite (m_tl _ _ _ M).
    constructor; cbn; try apply M; [reflexivity|]. rewrite Eb. reflexivity.
  - left. destruct (advcs_same _ _ _ MC ltac:(discriminate)) as [Q HD]. pose proof (advcs_still _ _ _ MC ltac:(discriminate)) as ST.
    cbn [step] in *. unfold consume in *. rewrite Q in *. destruct (busy q cur) eqn:Eb; cbn [negb] in *.
    + destruct (sim_inq _ _ _ _ M Eb) as (I1 & I2 & _). rewrite I1 in E. cbn [negb] in E. rewrite I2 in E.
      destruct (cur =? t); injection E as <-; eexists _, c; (split; [reflexivity|]); apply (sim_cs s q c _ M); right; apply ST.
    + exfalso. exact (NB _ eq_refl eq_refl).
  - left. destruct (advcs_same _ _ _ MC ltac:(discriminate)) as [Q HD]. pose proof (advcs_still _ _ _ MC ltac:(discriminate)) as ST.
    cbn [step] in *. unfold consume in *. rewrite Q in *. destruct (busy q cur) eqn:Eb; cbn [negb] in *.
    + destruct (sim_inq _ _ _ _ M Eb) as (I1 & I2 & _). rewrite I1 in E. cbn [negb] in E. rewrite I2 in E.
      injection E as <-; eexists _, c; (split; [reflexivity|]); apply (sim_cs s q c _ M); right; apply ST.
    + exfalso. exact (NB _ eq_refl eq_refl).
  - left. destruct (advcs_same _ _ _ MC ltac:(discriminate)) as [Q HD]. pose proof (advcs_still _ _ _ MC ltac:(discriminate)) as ST.
    cbn [step] in *. unfold consume in *. rewrite Q in *. destruct (e =? 0).
    { injection E as <-; eexists _, c; (split; [reflexivity|]); apply (sim_cs s q c _ M); right; apply ST. }
    destruct (busy q e) eqn:Eb; cbn [negb] in *.
    + destruct (sim_inq _ _ _ _ M Eb) as (I1 & I2 & _). rewrite I1 in E. cbn [negb] in E. rewrite I2 in E.
      injection E as <-; eexists _, c; (split; [reflexivity|]); apply (sim_cs s q c _ M); right; apply ST.
    + exfalso. exact (NB _ eq_refl eq_refl).
  - left. destruct (advcs_same _ _ _ MC ltac:(discriminate)) as [Q HD]. pose proof (advcs_still _ _ _ MC ltac:(discriminate)) as ST.
    cbn [step] in *. unfold consume in *. rewrite Q in *. destruct (busy q e) eqn:Eb; cbn [negb] in *.
    + destruct (sim_inq _ _ _ _ M Eb) as (I1 & _ & I3). rewrite I1 in E. cbn [negb] in E. rewrite I3 in E.
      injection E as <-. assert (CE : c e = None) by (apply (m_busy _ _ _ M); exact Eb).
      assert (NM : forall w, ~ ment e (tbuf s w)).
      { intros w X. pose proof (okl_ment _ _ _ _ e (m_buf _ _ _ M w) X). congruence. }
      eexists _, (fun a => if a =? e then Some Owner else c a). split; [reflexivity|]. constructor; cbn; try apply M.
      * apply ST.
      * intros a. unfold updb. destruct (Z.eqb_spec a e) as [->|NE]; [split; discriminate|]. apply M.
      * intros a w. unfold updl. destruct (Z.eqb_spec a e) as [->|NE].
        -- intros X. injection X as <-. split; [reflexivity|]. intros G. exact (NM Owner (gone_ment _ _ G)).
        -- apply M.
      * intros a. unfold updl. destruct (Z.eqb_spec a e); [discriminate|]. apply M.
      * intros t a v X. destruct (m_pay _ _ _ M t a v X) as (P1 & P2 & P3 & P4).
        assert (NE : a <> e) by congruence. rewrite (updl_other _ _ _ _ NE). destruct (Z.eqb_spec a e); [contradiction|]. auto.
      * intros w. apply (okl_ext (tpl s) _ c); [| |apply M].
        -- intros a X. destruct (Z.eqb_spec a e) as [->|_]; [exfalso; exact (NM w X)|reflexivity].
        -- intros a X. apply updl_other. intros ->. exact (NM w (gone_ment _ _ X)).
      * rewrite !pubs_app, (m_pubs _ _ _ M). reflexivity.
      * rewrite !dels_app, (m_dels _ _ _ M). reflexivity.
    + exfalso. exact (NB _ eq_refl eq_refl).
  - discriminate.
Qed.

(** ** A store reaches memory *)
Lemma okl_tail : forall pl c w x r, okl pl c w (x :: r) -> okl pl c w r.
Proof. intros pl c w x r (_ & _ & _ & H). exact H. Qed.

(** The buffers after the oldest store of [w] left, when nothing else changes. *)
Lemma pop_held : forall s q c w x r, Sim s q c -> tbuf s w = x :: r -> forall a u, tpl s a = Held u -> c a = Some u /\ ~ gone a (updw (tbuf s) w r u).
Proof.
  intros s q c w x r M E a u H. destruct (m_held _ _ _ M a u H) as [H1 H2]. split; [exact H1|].
  destruct (who_eqb_spec u w) as [->|NE]; [rewrite updw_same|rewrite (updw_other _ _ _ _ NE); exact H2].
  intros G. apply H2. rewrite E. apply gone_cons. right. exact G.
Qed.
Lemma pop_pay : forall s q c w x r, Sim s q c -> tbuf s w = x :: r -> forall t e v, tpc s t = PPay e v ->
  e <> 0 /\ tpl s e = InQ /\ c e = Some (Thr t) /\ ~ gone e (updw (tbuf s) w r (Thr t)).
Proof.
  intros s q c w x r M E t e v H. destruct (m_pay _ _ _ M t e v H) as (H1 & H2 & H3 & H4). repeat (split; [assumption|]).
  destruct (who_eqb_spec (Thr t) w) as [X|NE]; [|rewrite (updw_other _ _ _ _ NE); exact H4].
  subst w. rewrite updw_same. intros G. apply H4. rewrite E. apply gone_cons. right. exact G.
Qed.
Lemma pop_buf : forall s q c w x r, Sim s q c -> tbuf s w = x :: r -> forall u, okl (tpl s) c u (updw (tbuf s) w r u).
Proof.
  intros s q c w x r M E u. destruct (who_eqb_spec u w) as [->|NE].
  - rewrite updw_same. apply (okl_tail _ _ _ x). rewrite <- E. apply M.
  - rewrite (updw_other _ _ _ _ NE). apply M.
Qed.
Lemma pop_prd : forall s q c t x r p', Sim s q c -> tbuf s (Thr t) = x :: r -> adv (prd q t) x = Some p' ->
  forall u, advs (updp (prd q) t p' u) (updw (tbuf s) (Thr t) r (Thr u)) = Some (lagged (tpc s u)).
Proof.
  intros s q c t x r p' M E A u. destruct (Nat.eq_dec u t) as [->|NE].
  - rewrite updp_same, updw_same. pose proof (m_prd _ _ _ M t) as X. rewrite E in X. cbn in X. rewrite A in X. exact X.
  - rewrite (updp_other _ _ _ _ NE). rewrite updw_other; [|congruence]. apply M.
Qed.
(** A store that moves nothing. *)
Lemma pop_prd_same : forall s q c w x r, Sim s q c -> tbuf s w = x :: r -> (forall p p', adv p x = Some p' -> p' = p) ->
  forall u, advs (prd q u) (updw (tbuf s) w r (Thr u)) = Some (lagged (tpc s u)).
Proof.
  intros s q c w x r M E A u. destruct (who_eqb_spec (Thr u) w) as [X|NE].
  - subst w. rewrite updw_same. pose proof (m_prd _ _ _ M u) as X. rewrite E in X. cbn in X.
    destruct (adv (prd q u) x) as [p|] eqn:Ea; [|discriminate]. rewrite (A _ _ Ea) in X. exact X.
  - rewrite (updw_other _ _ _ _ NE). apply M.
Qed.
Lemma pop_cns_same : forall s q c w x r, Sim s q c -> tbuf s w = x :: r -> (forall p p', advc p x = Some p' -> p' = p) ->
  advcs (cns q) (updw (tbuf s) w r Owner) = Some (tcs s).
Proof.
  intros s q c w x r M E A. destruct (who_eqb_spec Owner w) as [X|NE].
  - subst w. rewrite updw_same. pose proof (m_cns _ _ _ M) as X. rewrite E in X. cbn in X.
    destruct (advc (cns q) x) as [p|] eqn:Ea; [|discriminate]. rewrite (A _ _ Ea) in X. exact X.
  - rewrite (updw_other _ _ _ _ NE). apply M.
Qed.

Lemma adv_about : forall x, about x <> None -> leaves x = false -> forall p p', adv p x = Some p' -> p' = p.
Proof. intros x A L p p' E. destruct x; cbn in *; try congruence; destruct p; congruence. Qed.
Lemma advc_about : forall x, about x <> None -> leaves x = false -> forall p p', advc p x = Some p' -> p' = p.
Proof. intros x A L p p' E. destruct x; cbn in *; congruence. Qed.

(** A store of the program in a block. *)
Lemma sim_flush_w : forall s q c w x r a n v, Sim s q c -> tbuf s w = x :: r -> about x = Some a -> leaves x = false ->
  (forall b, n b = upd (nxt q) a (n a) b) -> (forall b, v b = upd (pay q) a (v a) b) ->
  exists q', step q (Scribble a (n a) (v a)) = Some q' /\
    Sim (mkT n v (thd s) (ttl s) (tpc s) (tcs s) (updw (tbuf s) w r) (tpl s) (tbad s) (ttr s)) q' c.
Proof.
  intros s q c w x r a n v M E A L N V.
  assert (CA : c a = Some w).
  { apply (okl_ment _ _ _ _ a (m_buf _ _ _ M w)). rewrite E. apply ment_cons. left. exact A. }
  assert (BF : busy q a = false).
  { destruct (busy q a) eqn:B; [|reflexivity]. apply (m_busy _ _ _ M) in B. congruence. }
  cbn [step]. rewrite BF. eexists. split; [reflexivity|]. constructor; cbn; try apply M.
  - intros b. symmetry. apply N.
  - intros b. symmetry. apply V.
  - apply (pop_prd_same s q c w x r M E). apply adv_about; [congruence|exact L].
  - apply (pop_cns_same s q c w x r M E). apply advc_about; [congruence|exact L].
  - exact (pop_held s q c w x r M E).
  - exact (pop_pay s q c w x r M E).
  - exact (pop_buf s q c w x r M E).
Qed.

Lemma upd_id : forall f a b, f b = upd f a (f a) b.
Proof. intros f a b. unfold upd. destruct (Z.eqb_spec b a); congruence. Qed.
Lemma upd_ext : forall f g a v b, (forall x, f x = g x) -> upd f a v b = upd g a v b.
Proof. intros f g a v b H. unfold upd. destruct (b =? a); auto. Qed.

(** A block given to another thread. *)
Lemma sim_flush_give : forall s q c w a u r, Sim s q c -> tbuf s w = WGive a u :: r ->
  Sim (t_pl (t_buf s w r) a (Held u)) q (fun b => if b =? a then Some u else c b).
Proof.
  intros s q c w a u r M E. pose proof (m_buf _ _ _ M w) as O. rewrite E in O. destruct O as (O1 & O2 & O3 & O4).
  specialize (O1 a eq_refl). specialize (O2 a eq_refl eq_refl).
  assert (NM : forall y, ~ ment a (updw (tbuf s) w r y)).
  { intros y. destruct (who_eqb_spec y w) as [->|NE]; [rewrite updw_same; exact O2|]. rewrite (updw_other _ _ _ _ NE).
    intros X. pose proof (okl_ment _ _ _ _ a (m_buf _ _ _ M y) X). congruence. }
  constructor; cbn; try apply M.
  - apply (pop_prd_same s q c w _ r M E). intros p p' A. destruct p; cbn in A; congruence.
  - apply (pop_cns_same s q c w _ r M E). intros p p' A. cbn in A. congruence.
  - intros b. destruct (Z.eqb_spec b a) as [->|NE]; [|apply M]. rewrite (m_busy _ _ _ M). rewrite O1. split; discriminate.
  - intros b y. unfold updl. destruct (Z.eqb_spec b a) as [->|NE].
    + intros X. injection X as <-. split; [reflexivity|]. intros G. exact (NM u (gone_ment _ _ G)).
    + exact (pop_held s q c w _ r M E b y).
  - intros b. unfold updl. destruct (Z.eqb_spec b a); [discriminate|]. apply M.
  - intros t e v X. destruct (pop_pay s q c w _ r M E t e v X) as (P1 & P2 & P3 & P4).
    assert (NE : e <> a) by congruence. rewrite (updl_other _ _ _ _ NE). destruct (Z.eqb_spec e a); [contradiction|]. auto.
  - intros y. apply (okl_ext (tpl s) _ c); [| |exact (pop_buf s q c w _ r M E y)].
    + intros b X. destruct (Z.eqb_spec b a) as [->|_]; [exfalso; exact (NM y X)|reflexivity].
    + intros b X. apply updl_other. intros ->. exact (NM y (gone_ment _ _ X)).
Qed.

Lemma advcs_swap : forall b h c, advcs (CSwap h) b = Some c -> c = CSwap h.
Proof.
  induction b as [|y b IH]; intros h c A; cbn in A; [congruence|]. destruct (advc (CSwap h) y) as [d|] eqn:D; [|discriminate].
  destruct y; cbn in D; try discriminate; injection D as <-; exact (IH h c A).
Qed.

(** The owner clears the head. *)
Lemma sim_flush_clear : forall s q c v r, Sim s q c -> tbuf s Owner = SHead v :: r ->
  exists q', step q Cons = Some q' /\ Sim (t_mem (t_buf s Owner r) (tn s) (tp s) v) q' c /\ (exists h, tcs s = CSwap h).
Proof.
  intros s q c v r M E. pose proof (m_cns _ _ _ M) as X. rewrite E in X. cbn in X.
  destruct (cns q) as [| |h|h|h t cur|h t cur|e|e n|] eqn:Ec; try discriminate. destruct (Z.eqb_spec v 0) as [->|]; [|discriminate].
  cbn [step]. unfold consume. rewrite Ec. eexists. split; [reflexivity|]. split.
  - constructor; cbn; try apply M; try reflexivity.
    + exact X.
    + exact (pop_held s q c Owner _ r M E).
    + exact (pop_buf s q c Owner _ r M E).
  - exists h. exact (advcs_swap _ _ _ X).
Qed.

(** First store of a call: the sequentially consistent call starts here. *)
Lemma sim_flush_pay : forall s q c t e v r, Sim s q c -> tbuf s (Thr t) = SPay e v :: r ->
  exists q1 q2, step q (Start t e v) = Some q1 /\ step q1 (Go t) = Some q2 /\
    Sim (apply (t_buf s (Thr t) r) (SPay e v)) q2 (fun b => if b =? e then None else c b).
Proof.
  intros s q c t e v r M E. pose proof (m_buf _ _ _ M (Thr t)) as O. rewrite E in O. destruct O as (O1 & O2 & [O3 NZ] & O4).
  specialize (O1 e eq_refl). specialize (O2 e eq_refl eq_refl).
  pose proof (m_prd _ _ _ M t) as X. rewrite E in X. cbn in X. destruct (prd q t) eqn:Ep; try discriminate.
  assert (BF : busy q e = false).
  { destruct (busy q e) eqn:B; [|reflexivity]. apply (m_busy _ _ _ M) in B. congruence. }
  assert (NM : forall y, ~ ment e (updw (tbuf s) (Thr t) r y)).
  { intros y. destruct (who_eqb_spec y (Thr t)) as [->|NE]; [rewrite updw_same; exact O2|]. rewrite (updw_other _ _ _ _ NE).
    intros Y. pose proof (okl_ment _ _ _ _ e (m_buf _ _ _ M y) Y). congruence. }
  cbn [step]. unfold start. rewrite Ep, BF. destruct (Z.eqb_spec e 0); [contradiction|]. cbn [orb].
  eexists _, _. split; [reflexivity|]. unfold go. cbn [prd log set_busy set_prod]. rewrite updp_same. split; [reflexivity|].
  unfold apply. cbn [tn tp thd tpl in_q t_mem t_buf]. unfold in_q. cbn [tpl t_mem t_buf]. rewrite O3.
  constructor; cbn; try apply M.
  - intros a. apply upd_ext. apply M.
  - intros u. destruct (Nat.eq_dec u t) as [->|NE].
    + rewrite updp_same, updw_same. exact X.
    + rewrite !(updp_other _ _ _ _ NE). rewrite updw_other; [|congruence]. apply M.
  - intros a. unfold updb. destruct (Z.eqb_spec a e); [tauto|]. apply M.
  - intros a w H. destruct (pop_held s q c (Thr t) _ r M E a w H) as [H1 H2]. split; [|exact H2].
    destruct (Z.eqb_spec a e) as [->|_]; [congruence|exact H1].
  - intros a. destruct (Z.eqb_spec a e) as [->|_]; [auto|]. apply M.
  - intros u a w H. destruct (pop_pay s q c (Thr t) _ r M E u a w H) as (P1 & P2 & P3 & P4). split; [exact P1|]. split; [exact P2|].
    split; [|exact P4]. destruct (Z.eqb_spec a e) as [->|_]; [|exact P3].
    rewrite O1 in P3. injection P3 as <-. destruct (m_pay _ _ _ M t e w H) as (_ & _ & _ & G). exfalso. apply G. rewrite E.
    apply gone_cons. left. split; reflexivity.
  - intros w. apply (okl_ext (tpl s) _ c); [|reflexivity|exact (pop_buf s q c (Thr t) _ r M E w)].
    intros a Y. destruct (Z.eqb_spec a e) as [->|_]; [exfalso; exact (NM w Y)|reflexivity].
  - rewrite pubs_snoc_other; [apply M|discriminate].
  - rewrite dels_snoc_other; [apply M|discriminate].
Qed.

(** The other stores of the insertion. *)
Lemma pre_busy : forall q t e, reach q -> pre (prd q t) e -> busy q e = true.
Proof. intros q t e R P. destruct (reach_inv q R) as (B & Q & I). exact (proj1 (proj2 (i_pre _ _ _ I t e P))). Qed.
Lemma link_busy : forall q t e p, reach q -> prd q t = PLink e p -> p <> 0 -> busy q p = true.
Proof.
  intros q t e p R P NZ. destruct (reach_inv q R) as (B & Q & I). destruct (i_plp _ _ _ I t e p P NZ) as [_ A].
  apply (i_busy _ _ _ I). exact (proj1 (adj_in2 _ _ _ _ A)).
Qed.

Lemma sim_go_nxt : forall s q c t a v r p' t' , Sim s q c -> tbuf s (Thr t) = SNext a v :: r -> adv (prd q t) (SNext a v) = Some p' ->
  busy q a = true -> pubs t' = pubs (tr q) -> dels t' = dels (tr q) ->
  Sim (apply (t_buf s (Thr t) r) (SNext a v)) (mkQ (upd (nxt q) a v) (pay q) (qhd q) (qtl q) (updp (prd q) t p') (cns q) (busy q) t') c.
Proof.
  intros s q c t a v r p' t' M E A BS T1 T2. destruct (sim_inq _ _ _ _ M BS) as (I1 & _ & _). unfold in_q in I1.
  unfold apply, in_q. cbn [tn tp thd tpl t_mem t_buf]. destruct (tpl s a); try discriminate.
  constructor; cbn; try apply M.
  - intros b. apply upd_ext. apply M.
  - exact (pop_prd s q c t _ r p' M E A).
  - exact (pop_held s q c (Thr t) _ r M E).
  - exact (pop_pay s q c (Thr t) _ r M E).
  - exact (pop_buf s q c (Thr t) _ r M E).
  - rewrite T1. apply M.
  - rewrite T2. apply M.
Qed.

Lemma sim_flush_next : forall s q c t a v r, reach q -> Sim s q c -> tbuf s (Thr t) = SNext a v :: r ->
  exists q', step q (Go t) = Some q' /\ Sim (apply (t_buf s (Thr t) r) (SNext a v)) q' c.
Proof.
  intros s q c t a v r R M E. pose proof (m_prd _ _ _ M t) as X. rewrite E in X. cbn [advs] in X.
  destruct (adv (prd q t) (SNext a v)) as [p'|] eqn:A; [|discriminate]. pose proof A as A0. cbn [step]. unfold go.
  destruct (prd q t) as [|e w|e w|e w|e w|e p|] eqn:Ep; try discriminate; cbn in A.
  - destruct (Z.eqb_spec a e) as [->|]; [|discriminate]. destruct (Z.eqb_spec v 0) as [->|]; [|discriminate]. injection A as <-.
    eexists. split; [reflexivity|]. apply (sim_go_nxt s q c t e 0 r (PNext2 e w) (tr q) M E); auto; [rewrite Ep; exact A0|].
    apply (pre_busy q t e R). rewrite Ep. reflexivity.
  - destruct (Z.eqb_spec a e) as [->|]; [|discriminate]. destruct (Z.eqb_spec v 0) as [->|]; [|discriminate]. injection A as <-.
    eexists. split; [reflexivity|]. apply (sim_go_nxt s q c t e 0 r (PSwap e w) (tr q) M E); auto; [rewrite Ep; exact A0|].
    apply (pre_busy q t e R). rewrite Ep. reflexivity.
  - destruct (Z.eqb_spec a p) as [->|]; [|discriminate]. destruct (Z.eqb_spec v e) as [->|]; [|discriminate].
    destruct (Z.eqb_spec p 0) as [|NZ]; [discriminate|]. injection A as <-.
    assert (BS : busy q p = true) by exact (link_busy q t e p R Ep NZ). rewrite BS. eexists. split; [reflexivity|].
    apply (sim_go_nxt s q c t p e r PIdle (tr q ++ [ERet t]) M E); auto.
    + rewrite Ep. exact A0.
    + apply pubs_snoc_other. discriminate.
    + apply dels_snoc_other. discriminate.
Qed.

Lemma sim_flush_head : forall s q c t v r, Sim s q c -> tbuf s (Thr t) = SHead v :: r ->
  exists q', step q (Go t) = Some q' /\ Sim (apply (t_buf s (Thr t) r) (SHead v)) q' c.
Proof.
  intros s q c t v r M E. pose proof (m_prd _ _ _ M t) as X. rewrite E in X. cbn [advs] in X.
  destruct (adv (prd q t) (SHead v)) as [p'|] eqn:A; [|discriminate]. pose proof A as A0. cbn [step]. unfold go.
  destruct (prd q t) as [|e w|e w|e w|e w|e p|] eqn:Ep; try discriminate; cbn in A.
  destruct (Z.eqb_spec p 0) as [->|NZ]; [|discriminate]. destruct (Z.eqb_spec v e) as [->|]; [|discriminate]. injection A as <-.
  eexists. split; [reflexivity|]. constructor; cbn; try apply M.
  - reflexivity.
  - apply (pop_prd s q c t _ r PIdle M E). rewrite Ep. exact A0.
  - exact (pop_held s q c (Thr t) _ r M E).
  - exact (pop_pay s q c (Thr t) _ r M E).
  - exact (pop_buf s q c (Thr t) _ r M E).
  - rewrite pubs_snoc_other; [apply M|discriminate].
  - rewrite dels_snoc_other; [apply M|discriminate].
Qed.

Lemma sim_flush : forall s q c w s', reach q -> Sim s q c -> flush s w = Some s' ->
  exists l q' c', exec q l q' /\ Sim s' q' c' /\ ((forall a, In a l -> a <> Cons) \/ exists h, tcs s = CSwap h).
Proof.
  intros s q c w s' R M F. unfold flush in F. destruct (tbuf s w) as [|x r] eqn:E; [discriminate|]. injection F as <-.
  destruct x as [a v|a v|v|a v|a v|a u].
  - destruct w as [|t].
    { exfalso. exact (advcs_no_queue _ _ _ (m_cns _ _ _ M) (SPay a v) ltac:(rewrite E; left; reflexivity)). }
    destruct (sim_flush_pay s q c t a v r M E) as (q1 & q2 & S1 & S2 & M'). eexists [_; _], q2, _. split; [|split; [exact M'|]].
    + exact (exec_cons _ _ _ _ _ S1 (exec_cons _ _ _ _ _ S2 (exec_nil q2))).
    + left. intros z [<-|[<-|[]]]; discriminate.
  - destruct w as [|t].
    { exfalso. exact (advcs_no_queue _ _ _ (m_cns _ _ _ M) (SNext a v) ltac:(rewrite E; left; reflexivity)). }
    destruct (sim_flush_next s q c t a v r R M E) as (q1 & S1 & M'). eexists [_], q1, _. split; [|split; [exact M'|]].
    + exact (exec_cons _ _ _ _ _ S1 (exec_nil q1)).
    + left. intros z [<-|[]]; discriminate.
  - destruct w as [|t].
    + destruct (sim_flush_clear s q c v r M E) as (q1 & S1 & M' & C). eexists [_], q1, _. split; [|split; [exact M'|]].
      * exact (exec_cons _ _ _ _ _ S1 (exec_nil q1)).
      * right. exact C.
    + destruct (sim_flush_head s q c t v r M E) as (q1 & S1 & M'). eexists [_], q1, _. split; [|split; [exact M'|]].
      * exact (exec_cons _ _ _ _ _ S1 (exec_nil q1)).
      * left. intros z [<-|[]]; discriminate.
  - destruct (sim_flush_w s q c w _ r a (upd (tn s) a v) (tp s) M E eq_refl eq_refl) as (q1 & S1 & M').
    + intros b. rewrite upd_same. apply upd_ext. intros y. symmetry. apply M.
    + intros b. rewrite (upd_id (tp s) a b). apply upd_ext. intros y. symmetry. apply M.
    + eexists [_], q1, _. split; [|split; [exact M'|]].
      * exact (exec_cons _ _ _ _ _ S1 (exec_nil q1)).
      * left. intros z [<-|[]]; discriminate.
  - destruct (sim_flush_w s q c w _ r a (tn s) (upd (tp s) a v) M E eq_refl eq_refl) as (q1 & S1 & M').
    + intros b. rewrite (upd_id (tn s) a b). apply upd_ext. intros y. symmetry. apply M.
    + intros b. rewrite upd_same. apply upd_ext. intros y. symmetry. apply M.
    + eexists [_], q1, _. split; [|split; [exact M'|]].
      * exact (exec_cons _ _ _ _ _ S1 (exec_nil q1)).
      * left. intros z [<-|[]]; discriminate.
  - exists [], q, (fun b => if b =? a then Some u else c b). split; [constructor|]. split; [exact (sim_flush_give s q c w a u r M E)|].
    left. intros z [].
Qed.

(** ** All steps *)
Lemma sim_step : forall s q c x s', reach q -> Sim s q c -> tstep true s x = Some s' ->
  exists l q' c', exec q l q' /\ Sim s' q' c' /\
    (match x with TCons => l = [Cons] \/ (l = [] /\ exists h, tcs s = CClear h)
                | _ => (forall a, In a l -> a <> Cons) \/ exists h, tcs s = CSwap h end).
Proof.
  intros s q c [t e v|t| |w a v|w a v|w a u|w] s' R M E; cbn [tstep] in E.
  - exists [], q, c. split; [constructor|]. split; [exact (sim_start s q c t e v s' M E)|]. left. intros z [].
  - assert (D : (exists e v, tpc s t = PSwap e v) \/ forall e v, tpc s t <> PSwap e v)
      by (destruct (tpc s t); try (right; discriminate); left; eauto).
    destruct D as [(e & v & Ep)|N].
    + destruct (sim_swap s q c t e v s' M Ep E) as (q' & S1 & M'). exists [Go t], q', c.
      split; [exact (exec_cons _ _ _ _ _ S1 (exec_nil q'))|]. split; [exact M'|]. left. intros z [<-|[]]; discriminate.
    + exists [], q, c. split; [constructor|]. split; [exact (sim_go_push s q c t s' M E N)|]. left. intros z [].
  - destruct (sim_cons s q c s' R M E) as [(q' & c' & S1 & M')|[C M']].
    + exists [Cons], q', c'. split; [exact (exec_cons _ _ _ _ _ S1 (exec_nil q'))|]. split; [exact M'|]. left. reflexivity.
    + exists [], q, c. split; [constructor|]. split; [exact M'|]. right. split; [reflexivity|exact C].
  - destruct (outside s w) eqn:O; [|discriminate]. destruct (holds s w a) eqn:H; [|discriminate]. cbn in E. injection E as <-.
    exists [], q, c. split; [constructor|]. split; [|left; intros z []].
    destruct s. exact (sim_write _ q c w a (WN a v) _ M O H (or_introl (conj eq_refl (ex_intro _ v (or_introl eq_refl))))).
  - destruct (outside s w) eqn:O; [|discriminate]. destruct (holds s w a) eqn:H; [|discriminate]. cbn in E. injection E as <-.
    exists [], q, c. split; [constructor|]. split; [|left; intros z []].
    destruct s. exact (sim_write _ q c w a (WP a v) _ M O H (or_introl (conj eq_refl (ex_intro _ v (or_intror eq_refl))))).
  - destruct (outside s w) eqn:O; [|discriminate]. destruct (holds s w a) eqn:H; [|discriminate]. cbn in E. injection E as <-.
    exists [], q, c. split; [constructor|]. split; [|left; intros z []].
    exact (sim_write s q c w a (WGive a u) _ M O H (or_intror (ex_intro _ u (conj eq_refl eq_refl)))).
  - destruct (sim_flush s q c w s' R M E) as (l & q' & c' & X & M' & D). exists l, q', c'. auto.
Qed.

Lemma reach_exec : forall q l q', reach q -> exec q l q' -> reach q'.
Proof. intros q l q' R X. revert R. induction X as [|q a q1 l q2 E X IH]; intros R; [exact R|]. exact (IH (reach_step _ _ _ R E)). Qed.

Lemma sim_exec : forall s l s', texec true s l s' -> forall q c, reach q -> Sim s q c -> exists q' c', reach q' /\ Sim s' q' c'.
Proof.
  induction 1 as [s|s a s1 l s2 E X IH]; intros q c R M; [exists q, c; auto|].
  destruct (sim_step s q c a s1 R M E) as (l1 & q1 & c1 & X1 & M1 & _). exact (IH q1 c1 (reach_exec _ _ _ R X1) M1).
Qed.
Lemma sim_reach : forall s, treach true s -> exists q c, reach q /\ Sim s q c.
Proof.
  intros s (n & p & h & l & X). apply (sim_exec _ _ _ X (q0 n p) (fun a => Some (h a))).
  - exists n, p, []. constructor.
  - apply sim0.
Qed.
