(** Consequences of the simulation: what the queue guarantees with store buffers. *)
From Verif Require Import MpscfModel MpscfSpec MpscfProofs MpscfProps TsoModel TsoSpec TsoProofs.
From Coq Require Import ZArith List Bool Lia.
Import ListNotations.
Open Scope Z_scope.

Lemma tso_prefix : forall s, treach true s -> prefix (dels (ttr s)) (pubs (ttr s)).
Proof.
  intros s R. destruct (sim_reach s R) as (q & c & RQ & M). rewrite (m_pubs _ _ _ M), (m_dels _ _ _ M). exact (dels_prefix q RQ).
Qed.

Lemma tso_never_bad : forall s, treach true s -> tcs s <> CBad /\ tbad s = false.
Proof.
  intros s R. destruct (sim_reach s R) as (q & c & RQ & M). split; [|apply M]. intros E. pose proof (m_cns _ _ _ M) as X. rewrite E in X.
  destruct (advcs_same _ _ _ X ltac:(discriminate)) as [Q _]. exact (proj1 (never_bad q RQ) Q).
Qed.

(** ** Positions of both machines *)
Lemma advs_link : forall b p e r, advs p b = Some (PLink e r) -> b = [] /\ p = PLink e r.
Proof.
  intros b. destruct b as [|x b] using rev_ind; intros p e r H; [cbn in H; injection H as ->; auto|].
  exfalso. revert p H. clear IHb. induction b as [|y b IH]; intros p H.
  - cbn in H. destruct (adv p x) as [q|] eqn:A; [|discriminate]. injection H as ->. unfold adv in A.
    destruct x, p; try discriminate; repeat match type of A with context [if ?c then _ else _] => destruct c end; discriminate.
  - cbn in H. destruct (adv p y) as [q|]; [|discriminate]. exact (IH q H).
Qed.
Lemma advs_in_link : forall b p p' a e, advs p b = Some p' -> In (SNext a e) b -> e <> 0 -> p = PLink e a.
Proof.
  induction b as [|x b IH]; intros p p' a e H I NZ; [destruct I|]. cbn in H. destruct (adv p x) as [q|] eqn:A; [|discriminate].
  destruct I as [->|I].
  - destruct p as [|e0 w|e0 w|e0 w|e0 w|e0 r|]; cbn in A; try discriminate.
    + destruct (a =? e0); cbn in A; [|discriminate]. destruct (Z.eqb_spec e 0); [contradiction|discriminate].
    + destruct (a =? e0); cbn in A; [|discriminate]. destruct (Z.eqb_spec e 0); [contradiction|discriminate].
    + destruct (Z.eqb_spec a r) as [->|]; [|discriminate]. destruct (Z.eqb_spec e e0) as [->|]; [|discriminate]. reflexivity.
  - pose proof (IH q p' a e H I NZ) as ->. exfalso. unfold adv in A.
    destruct x, p; try discriminate; repeat match type of A with context [if ?c then _ else _] => destruct c end; discriminate.
Qed.
Lemma advs_from_link : forall b e r p', advs (PLink e r) b = Some p' -> b = [] /\ p' = PLink e r \/
  exists b', b = (if r =? 0 then SHead e else SNext r e) :: b' /\ advs PIdle b' = Some p'.
Proof.
  intros [|x b] e r p' H; cbn in H; [left; split; [reflexivity|congruence]|]. right. destruct (adv (PLink e r) x) as [q|] eqn:A; [|discriminate].
  destruct x as [a v|a v|v|a v|a v|a u]; cbn in A; try discriminate.
  - destruct (Z.eqb_spec a r) as [->|]; [|discriminate]. destruct (Z.eqb_spec v e) as [->|]; [|discriminate].
    destruct (r =? 0); cbn in A; [discriminate|]. injection A as <-. exists b. auto.
  - destruct (r =? 0); cbn in A; [|discriminate]. destruct (Z.eqb_spec v e) as [->|]; [|discriminate]. injection A as <-. exists b. auto.
Qed.
Lemma lagged_link : forall p e r, lagged p = PLink e r -> p = PLink e r.
Proof. intros p e r H. destruct p; cbn in H; congruence. Qed.

Lemma stalled_iff : forall s q c, reach q -> Sim s q c -> (tstalled s <-> stalled q).
Proof.
  intros s q c R M. split.
  - intros (h & t & cur & Ec & N & u & e & NZ & D). pose proof (m_cns _ _ _ M) as X. rewrite Ec in X.
    destruct (advcs_same _ _ _ X ltac:(discriminate)) as [Q _]. exists h, t, cur, u, e. split; [exact Q|]. split; [exact N|].
    pose proof (m_prd _ _ _ M u) as P. destruct D as [D|D].
    + rewrite D in P. cbn in P. exact (proj2 (advs_link _ _ _ _ P)).
    + exact (advs_in_link _ _ _ _ _ P D NZ).
  - intros (h & t & cur & u & e & Ec & N & P). destruct (reach_inv q R) as (B & Q & I).
    assert (NC : cur <> 0).
    { intros ->. pose proof (i_cons _ _ _ I) as IC. unfold cinv in IC. rewrite Ec in IC. destruct IC as (B1 & B2 & EB & _).
      apply (i_nz _ _ _ I). apply in_or_app. left. rewrite EB. apply in_or_app. right. left. reflexivity. }
    assert (NE : e <> 0).
    { destruct (i_plp _ _ _ I u e cur P NC) as [_ A]. destruct (adj_in2 _ _ _ _ A) as [_ A2]. intros ->. exact (i_nz _ _ _ I A2). }
    exists h, t, cur. split; [|split; [exact N|]].
    + pose proof (m_cns _ _ _ M) as X. rewrite Ec in X. clear -X.
      assert (G : forall b h t cur c', advcs (CWait h t cur) b = Some c' -> c' = CWait h t cur).
      { induction b as [|y b IH]; intros h0 t0 cur0 c' A; cbn in A; [congruence|]. destruct (advc (CWait h0 t0 cur0) y) as [d|] eqn:D; [|discriminate].
        destruct y; cbn in D; try discriminate; injection D as <-; exact (IH _ _ _ _ A). }
      exact (G _ _ _ _ _ X).
    + exists u, e. split; [exact NE|]. pose proof (m_prd _ _ _ M u) as X. rewrite P in X.
      destruct (advs_from_link _ _ _ _ X) as [[_ L]|(b & L & _)].
      * left. exact (lagged_link _ _ _ L).
      * right. rewrite L. destruct (Z.eqb_spec cur 0); [contradiction|]. left. reflexivity.
Qed.

(** ** Nothing is left behind *)
Lemma settled_flight : forall s q c, Sim s q c -> settled s -> forall t, ~ in_flight q t.
Proof.
  intros s q c M [S1 S2] t (e & p & P). pose proof (m_prd _ _ _ M t) as X. rewrite S1, P in X. cbn in X. injection X as X.
  exact (S2 t e p (lagged_link _ _ _ (eq_sym X))).
Qed.
Lemma tso_quiescent : forall s, treach true s -> settled s -> tcs s = CIdle -> thd s = 0 -> dels (ttr s) = pubs (ttr s).
Proof.
  intros s R S1 C H. destruct (sim_reach s R) as (q & c & RQ & M). rewrite (m_pubs _ _ _ M), (m_dels _ _ _ M).
  apply (quiescent q RQ (settled_flight s q c M S1)).
  - pose proof (m_cns _ _ _ M) as X. rewrite (proj1 S1 Owner) in X. cbn in X. congruence.
  - rewrite (m_hd _ _ _ M). exact H.
Qed.

Lemma texec_app : forall f s l s1 m s2, texec f s l s1 -> texec f s1 m s2 -> texec f s (l ++ m) s2.
Proof. intros f s l s1 m s2 H. induction H; cbn; auto. intros X. econstructor; eauto. Qed.

(** The memory system empties one buffer. *)
Lemma apply_same : forall s x, tbuf (apply s x) = tbuf s /\ tpc (apply s x) = tpc s /\ tcs (apply s x) = tcs s /\ ttr (apply s x) = ttr s.
Proof. intros s x. destruct x; cbn; try (destruct (in_q _ _)); auto. Qed.
Lemma empty_one : forall b s w, tbuf s w = b -> exists s', texec true s (repeat (TFlush w) (length b)) s' /\ tbuf s' w = [] /\
  (forall u, u <> w -> tbuf s' u = tbuf s u) /\ tpc s' = tpc s /\ tcs s' = tcs s /\ ttr s' = ttr s.
Proof.
  induction b as [|x b IH]; intros s w E; [exists s; split; [constructor|]; auto|].
  destruct (apply_same (t_buf s w b) x) as (A1 & A2 & A3 & A4). cbn [tbuf tpc tcs ttr t_buf] in *.
  destruct (IH (apply (t_buf s w b) x) w) as (s' & X & F1 & F2 & F3 & F4 & F5); [rewrite A1; apply updw_same|].
  exists s'. split.
  - cbn [length repeat]. apply (texec_cons true s (TFlush w) (apply (t_buf s w b) x)); [|exact X]. cbn [tstep]. unfold flush. rewrite E. reflexivity.
  - split; [exact F1|]. rewrite F3, F4, F5, A2, A3, A4. split; [|auto]. intros u NE. rewrite (F2 u NE), A1. apply updw_other. exact NE.
Qed.
Fixpoint empties (n : nat) (s : tst) : Prop := match n with O => True | S m => tbuf s (Thr m) = [] /\ empties m s end.
Lemma empty_many : forall n s, exists l s', texec true s l s' /\ (forall a, In a l -> quiet_act a) /\
  (forall t, (t < n)%nat -> tbuf s' (Thr t) = []) /\ tbuf s' Owner = [] /\
  (forall t, (n <= t)%nat -> tbuf s' (Thr t) = tbuf s (Thr t)) /\ tpc s' = tpc s /\ tcs s' = tcs s /\ ttr s' = ttr s.
Proof.
  induction n as [|n IH]; intros s.
  - destruct (empty_one _ s Owner eq_refl) as (s' & X & F1 & F2 & F3 & F4 & F5). eexists _, s'. split; [exact X|]. split.
    { intros a I. apply repeat_spec in I. subst a. exact Logic.I. }
    split; [lia|]. split; [exact F1|]. split; [|auto]. intros t _. apply F2. discriminate.
  - destruct (IH s) as (l & s1 & X & Q & F1 & F2 & F3 & F4 & F5 & F6).
    destruct (empty_one _ s1 (Thr n) eq_refl) as (s' & X' & G1 & G2 & G3 & G4 & G5). eexists _, s'. split; [exact (texec_app _ _ _ _ _ _ X X')|].
    split; [|split; [|split; [|split]]].
    + intros a I. apply in_app_or in I. destruct I as [I|I]; [exact (Q a I)|]. apply repeat_spec in I. subst a. exact Logic.I.
    + intros t L. destruct (Nat.eq_dec t n) as [->|NE]; [exact G1|]. rewrite G2; [|congruence]. apply F1. lia.
    + rewrite G2; [exact F2|discriminate].
    + intros t L. rewrite G2; [|intros Y; injection Y; lia]. apply F3. lia.
    + rewrite G3, G4, G5, F4, F5, F6. auto.
Qed.

(** Only finitely many threads have a store in their buffer. *)
Definition few (s : tst) (n : nat) : Prop := forall t, (n <= t)%nat -> tbuf s (Thr t) = [].
Lemma few_upd : forall s s' w b n, few s n -> tbuf s' = updw (tbuf s) w b -> exists m, few s' m.
Proof.
  intros s s' w b n F E. exists (match w with Owner => n | Thr t => Nat.max n (S t) end). intros t L. rewrite E.
  destruct w as [|u]; [rewrite updw_other; [apply F; exact L|discriminate]|].
  rewrite updw_other; [apply F; lia|]. intros X. injection X as ->. lia.
Qed.
Lemma few_same : forall s s' n, few s n -> tbuf s' = tbuf s -> exists m, few s' m.
Proof. intros s s' n F E. exists n. intros t L. rewrite E. apply F. exact L. Qed.
Lemma few_step : forall f s x s' n, few s n -> tstep f s x = Some s' -> exists m, few s' m.
Proof.
  intros f s x s' n F E. destruct x as [t e v|t| |w a v|w a v|w a u|w]; cbn [tstep] in E.
  - unfold tstart in E. destruct (tpc s t), (tpl s e) as [[|u]| |]; try discriminate. destruct (_ || _); [discriminate|]. injection E as <-.
    exact (few_same s _ n F eq_refl).
  - unfold tgo in E. destruct (tpc s t) as [|e v|e v|e v|e v|e p|]; try discriminate;
      [| | |destruct (_ && _); [discriminate|]|]; injection E as <-; first [exact (few_same s _ n F eq_refl)|(eapply few_upd; [exact F|reflexivity])].
  - unfold tconsume in E. destruct (tcs s); try discriminate;
      repeat match type of E with context [if ?b then _ else _] => destruct b end; try discriminate; injection E as <-;
      first [exact (few_same s _ n F eq_refl)|(eapply few_upd; [exact F|reflexivity])].
  - destruct (_ && _); [|discriminate]. injection E as <-. (eapply few_upd; [exact F|reflexivity]).
  - destruct (_ && _); [|discriminate]. injection E as <-. (eapply few_upd; [exact F|reflexivity]).
  - destruct (_ && _); [|discriminate]. injection E as <-. (eapply few_upd; [exact F|reflexivity]).
  - unfold flush in E. destruct (tbuf s w) as [|x r]; [discriminate|]. injection E as <-.
    apply (few_upd s _ w r n F). exact (proj1 (apply_same _ _)).
Qed.
Lemma few_reach : forall f s, treach f s -> exists n, few s n.
Proof.
  intros f s (n & p & h & l & X). assert (H : exists m, few (t0 n p h) m) by (exists O; intros t _; reflexivity). revert H.
  induction X as [s|s a s1 l s2 E X IH]; intros [m F]; [exists m; exact F|]. apply IH. exact (few_step f s a s1 m F E).
Qed.

(** The owner of an empty buffer follows the sequentially consistent owner. *)
Lemma follow : forall s q c q', reach q -> Sim s q c -> (forall w, tbuf s w = []) -> step q Cons = Some q' ->
  exists l s' c', texec true s l s' /\ (forall a, In a l -> quiet_act a) /\ Sim s' q' c' /\ (forall w, tbuf s' w = []) /\ tpc s' = tpc s.
Proof.
  intros s q c q' R M E S1. pose proof (m_cns _ _ _ M) as X. rewrite (E Owner) in X. cbn in X. injection X as X.
  assert (D : (exists h, tcs s = CClear h) \/ (forall h, tcs s <> CClear h))
    by (destruct (tcs s); try (right; discriminate); left; eauto).
  destruct D as [[h D]|D].
  - set (s1 := push (t_cs s (CSwap h)) Owner (SHead 0)).
    assert (T1 : tconsume true s = Some s1) by (unfold tconsume; rewrite D; reflexivity).
    destruct (sim_cons s q c s1 R M T1) as [(q1 & c1 & S2 & M1)|[_ M1]].
    + exfalso. rewrite S1 in S2. injection S2 as <-. pose proof (m_cns _ _ _ M1) as Y. unfold s1 in Y. cbn in Y. rewrite (E Owner) in Y.
      cbn in Y. cbn [step] in S1. unfold consume in S1. rewrite X, D in S1. injection S1 as <-. cbn in Y. discriminate.
    + assert (B1 : tbuf s1 Owner = [SHead 0]) by (unfold s1, push; cbn; rewrite (E Owner); reflexivity).
      destruct (sim_flush_clear s1 q c 0 [] M1 B1) as (q1 & S2 & M2 & _). rewrite S1 in S2. injection S2 as <-.
      exists [TCons; TFlush Owner], (apply (t_buf s1 Owner []) (SHead 0)), c. split; [|split; [|split; [exact M2|split]]].
      * apply (texec_cons true s TCons s1); [exact T1|]. apply (texec_cons true s1 (TFlush Owner) (apply (t_buf s1 Owner []) (SHead 0))); [|constructor].
        cbn [tstep]. unfold flush. rewrite B1. reflexivity.
      * intros a [<-|[<-|[]]]; exact Logic.I.
      * intros w. unfold s1. cbn. unfold updw. destruct (who_eqb w Owner); [reflexivity|]. apply E.
      * reflexivity.
  - assert (T1 : exists s1, tconsume true s = Some s1 /\ tbuf s1 = tbuf s /\ tpc s1 = tpc s).
    { unfold tconsume. destruct (tcs s) eqn:Ec; try (eexists; split; [reflexivity|split; reflexivity]).
      - exfalso. exact (D h eq_refl).
      - unfold drained. rewrite (E Owner). cbn. eexists; split; [reflexivity|split; reflexivity].
      - destruct (negb _); [|destruct (_ =? _)]; eexists; (split; [reflexivity|split; reflexivity]).
      - destruct (negb _); eexists; (split; [reflexivity|split; reflexivity]).
      - destruct (_ =? _); [|destruct (negb _)]; eexists; (split; [reflexivity|split; reflexivity]).
      - destruct (negb _); eexists; (split; [reflexivity|split; reflexivity]).
      - exfalso. exact (proj1 (never_bad q R) X). }
    destruct T1 as (s1 & T1 & T2 & T3). destruct (sim_cons s q c s1 R M T1) as [(q1 & c1 & S2 & M1)|[[h Y] _]]; [|exfalso; exact (D h Y)].
    rewrite S1 in S2. injection S2 as <-. exists [TCons], s1, c1.
    split; [exact (texec_cons true s TCons s1 [] s1 T1 (texec_nil true s1))|]. split; [intros a [<-|[]]; exact Logic.I|].
    split; [exact M1|]. split; [intros w; rewrite T2; apply E|exact T3].
Qed.
Lemma follow_many : forall n s q c q', reach q -> Sim s q c -> (forall w, tbuf s w = []) -> exec q (repeat Cons n) q' ->
  exists l s' c', texec true s l s' /\ (forall a, In a l -> quiet_act a) /\ Sim s' q' c' /\ (forall w, tbuf s' w = []) /\ tpc s' = tpc s.
Proof.
  induction n as [|n IH]; intros s q c q' R M E X; cbn in X; inversion X; subst.
  - exists [], s, c. split; [constructor|]. split; [intros a []|]. auto.
  - match goal with H : step q Cons = Some ?q1, H2 : exec ?q1 _ _ |- _ => rename H into S1; rename H2 into X1 end.
    destruct (follow s q c _ R M E S1) as (l1 & s1' & c1 & T1 & Q1 & M1 & E1 & P1).
    destruct (IH _ _ c1 q' (reach_step _ _ _ R S1) M1 E1 X1) as (l2 & s2' & c2 & T2 & Q2 & M2 & E2 & P2).
    exists (l1 ++ l2), s2', c2. split; [exact (texec_app _ _ _ _ _ _ T1 T2)|]. split.
    + intros a I. apply in_app_or in I. destruct I; auto.
    + rewrite P2, P1. auto.
Qed.

Lemma tso_drain : forall s, treach true s -> (forall t e p, tpc s t <> PLink e p) ->
  exists l s', texec true s l s' /\ (forall a, In a l -> quiet_act a) /\ tcs s' = CIdle /\
    dels (ttr s') = pubs (ttr s') /\ pubs (ttr s') = pubs (ttr s).
Proof.
  intros s R NL. destruct (few_reach _ _ R) as [n F]. destruct (empty_many n s) as (l & s1 & X & Q & F1 & F2 & F3 & F4 & F5 & F6).
  assert (E1 : forall w, tbuf s1 w = []).
  { intros [|t]; [exact F2|]. destruct (Nat.lt_ge_cases t n) as [L|L]; [exact (F1 t L)|]. rewrite (F3 t L). exact (F t L). }
  assert (R1 : treach true s1).
  { destruct R as (a & b & h & l0 & X0). exists a, b, h, (l0 ++ l). exact (texec_app _ _ _ _ _ _ X0 X). }
  destruct (sim_reach s1 R1) as (q & c & RQ & M).
  assert (ST : settled s1) by (split; [exact E1|intros t e p; rewrite F4; apply NL]).
  destruct (drain q RQ (settled_flight s1 q c M ST)) as (k & q' & XQ & C & D1 & D2).
  destruct (follow_many k s1 q c q' RQ M E1 XQ) as (l2 & s2 & c2 & X2 & Q2 & M2 & E2 & P2).
  exists (l ++ l2), s2. split; [exact (texec_app _ _ _ _ _ _ X X2)|]. split; [|split; [|split]].
  - intros a I. apply in_app_or in I. destruct I; auto.
  - pose proof (m_cns _ _ _ M2) as Y. rewrite (E2 Owner), C in Y. cbn in Y. congruence.
  - rewrite (m_pubs _ _ _ M2), (m_dels _ _ _ M2). exact D1.
  - rewrite (m_pubs _ _ _ M2), D2, <- (m_pubs _ _ _ M), F6. reflexivity.
Qed.

(** ** Program order *)
Definition ttinv (s : tst) (t : nat) : Prop :=
  starts_of t (ttr s) = pubs_of t (ttr s) ++ flying (tpc s t) /\
  length (pubs_of t (ttr s)) = (rets_of t (ttr s) + linking (tpc s t))%nat.
Lemma ttinv_same : forall s s' t, ttinv s t -> flying (tpc s' t) = flying (tpc s t) -> linking (tpc s' t) = linking (tpc s t) ->
  starts_of t (ttr s') = starts_of t (ttr s) -> pubs_of t (ttr s') = pubs_of t (ttr s) -> rets_of t (ttr s') = rets_of t (ttr s) -> ttinv s' t.
Proof. intros s s' t H E1 E1' E2 E3 E4. unfold ttinv in *. rewrite E1, E1', E2, E3, E4. exact H. Qed.
Lemma ttinv_step : forall f s x s' t, ttinv s t -> tstep f s x = Some s' -> ttinv s' t.
Proof.
  intros f s x s' t H E. destruct x as [u e v|u| |w a v|w a v|w a u|w]; cbn [tstep] in E.
  - unfold tstart in E. destruct (tpc s u) eqn:Eu; try discriminate. destruct (tpl s e) as [[|y]| |]; try discriminate.
    destruct (_ || _); [discriminate|]. injection E as <-. destruct (Nat.eq_dec t u) as [->|N].
    + destruct H as [H1 H2]. rewrite Eu in *. unfold ttinv. cbn in *. rewrite updp_same, starts_app, pubs_of_app, rets_app. cbn.
      rewrite Nat.eqb_refl, app_nil_r. rewrite app_nil_r in H1. rewrite H1. split; [reflexivity|lia].
    + apply (ttinv_same s _ t H); cbn; try (rewrite updp_other; [reflexivity|exact N]).
      * rewrite starts_app. cbn. destruct (Nat.eqb_spec u t) as [X|_]; [congruence|]. apply app_nil_r.
      * rewrite pubs_of_app. apply app_nil_r.
      * rewrite rets_app. cbn. lia.
  - unfold tgo in E. destruct (Nat.eq_dec t u) as [->|N].
    + destruct H as [H1 H2]. destruct (tpc s u) as [|e v|e v|e v|e v|e p|] eqn:Eu; try discriminate.
      * injection E as <-. unfold ttinv. cbn. rewrite updp_same. split; assumption.
      * injection E as <-. unfold ttinv. cbn. rewrite updp_same. split; assumption.
      * injection E as <-. unfold ttinv. cbn. rewrite updp_same. split; assumption.
      * destruct (_ && _); [discriminate|]. injection E as <-. unfold ttinv. cbn in *. rewrite updp_same, starts_app, pubs_of_app, rets_app.
        cbn. rewrite Nat.eqb_refl, !app_nil_r. split; [exact H1|]. rewrite app_length. cbn. lia.
      * injection E as <-. unfold ttinv. cbn in *. rewrite updp_same, starts_app, pubs_of_app, rets_app. cbn. rewrite Nat.eqb_refl, !app_nil_r.
        rewrite app_nil_r in H1. split; [exact H1|lia].
    + assert (NE : Nat.eqb u t = false) by (apply Nat.eqb_neq; congruence).
      destruct (tpc s u) as [|e v|e v|e v|e v|e p|] eqn:Eu; try discriminate; [| | |destruct (_ && _); [discriminate|]|]; injection E as <-;
        apply (ttinv_same s _ t H); cbn; rewrite ?(updp_other _ _ _ _ N), ?starts_app, ?pubs_of_app, ?rets_app; cbn; rewrite ?NE, ?app_nil_r; try reflexivity; lia.
  - unfold tconsume in E. destruct (tcs s); try discriminate;
      repeat match type of E with context [if ?b then _ else _] => destruct b end; try discriminate; injection E as <-;
      apply (ttinv_same s _ t H); cbn; rewrite ?starts_app, ?pubs_of_app, ?rets_app; cbn; rewrite ?app_nil_r; try reflexivity; lia.
  - destruct (_ && _); [|discriminate]. injection E as <-. exact H.
  - destruct (_ && _); [|discriminate]. injection E as <-. exact H.
  - destruct (_ && _); [|discriminate]. injection E as <-. exact H.
  - unfold flush in E. destruct (tbuf s w) as [|x r]; [discriminate|]. injection E as <-.
    destruct (apply_same (t_buf s w r) x) as (_ & A2 & _ & A4). unfold ttinv. rewrite A2, A4. exact H.
Qed.
Lemma ttinv_reach : forall f s t, treach f s -> ttinv s t.
Proof.
  intros f s t (n & p & h & l & X). assert (H : ttinv (t0 n p h) t) by (split; reflexivity). revert H.
  induction X as [s|s a s1 l s2 E X IH]; intros H; [exact H|]. apply IH. exact (ttinv_step f s a s1 t H E).
Qed.
Lemma tso_order : forall s t, treach true s -> prefix (pubs_of t (ttr s)) (starts_of t (ttr s)) /\
  (length (starts_of t (ttr s)) <= S (rets_of t (ttr s)))%nat /\ (rets_of t (ttr s) <= length (pubs_of t (ttr s)))%nat.
Proof.
  intros s t R. destruct (ttinv_reach _ s t R) as [H1 H2]. split; [eexists; exact H1|]. rewrite H1, app_length.
  destruct (tpc s t); cbn in *; lia.
Qed.
Lemma tso_idle : forall s t, treach true s -> tpc s t = PIdle -> pubs_of t (ttr s) = starts_of t (ttr s) /\
  rets_of t (ttr s) = length (starts_of t (ttr s)).
Proof.
  intros s t R E. destruct (ttinv_reach _ s t R) as [H1 H2]. rewrite E in *. cbn in *. rewrite app_nil_r in H1. rewrite H1. split; [reflexivity|lia].
Qed.

(** ** Progress *)
Lemma taken_iff : forall s q c, Sim s q c -> ttaken s -> cns q = tcs s.
Proof.
  intros s q c M T. apply (advcs_same _ _ _ (m_cns _ _ _ M)). intros h E. unfold ttaken in T. rewrite E in T. exact T.
Qed.
Lemma run_others : forall l q q' n q2, exec q l q' -> (forall a, In a l -> a <> Cons) -> taken q -> run taken q' n q2 -> run taken q n q2.
Proof.
  induction 1 as [q|q a q1 l q' E X IH]; intros N T X2; [exact X2|].
  assert (NA : a <> Cons) by (apply N; left; reflexivity).
  apply (run_other taken q a q1 n q2 T (or_introl NA) E). apply IH; [intros b I; apply N; right; exact I| |exact X2].
  unfold taken in *. rewrite (other_cns q a q1 E NA). exact T.
Qed.
Lemma trun_run : forall s n s', trun ttaken s n s' -> forall q c, reach q -> Sim s q c -> exists q', run taken q n q'.
Proof.
  induction 1 as [s|s s1 n s2 T NS E X IH|s a s1 n s2 T D E X IH]; intros q c R M; [exists q; constructor| |].
  - destruct (sim_step s q c TCons s1 R M E) as (l & q1 & c1 & XQ & M1 & C).
    assert (l = [Cons]). { destruct C as [C|[_ [h C]]]; [exact C|]. unfold ttaken in T. rewrite C in T. destruct T. } subst l.
    inversion XQ as [|? ? q1' ? ? S1 X1]; subst. inversion X1; subst. destruct (IH q1 c1 (reach_step _ _ _ R S1) M1) as [q' RN].
    exists q'. apply (run_cons taken q q1 n q'); [|rewrite <- (stalled_iff s q c R M); exact NS|exact S1|exact RN].
    unfold taken, ttaken in *. rewrite (taken_iff s q c M T). exact T.
  - assert (TQ : taken q) by (unfold taken, ttaken in *; rewrite (taken_iff s q c M T); exact T).
    destruct (sim_step s q c a s1 R M E) as (l & q1 & c1 & XQ & M1 & C). destruct (IH q1 c1 (reach_exec _ _ _ R XQ) M1) as [q' RN].
    exists q'. assert (DC : a = TCons \/ a <> TCons) by (destruct a; try (right; discriminate); left; reflexivity). destruct DC as [->|NA].
    + assert (l = [Cons]). { destruct C as [C|[_ [h C]]]; [exact C|]. unfold ttaken in T. rewrite C in T. destruct T. } subst l.
      inversion XQ as [|? ? q1' ? ? S1 X1]; subst. inversion X1; subst. apply (run_other taken q Cons q1 n q' TQ); [|exact S1|exact RN].
      right. apply (stalled_iff s q c R M). destruct D as [D|D]; [congruence|exact D].
    + apply (run_others l q q1 n q' XQ); [|exact TQ|exact RN].
      assert (C2 : (forall z, In z l -> z <> Cons) \/ exists h, tcs s = CSwap h) by (destruct a; try exact C; congruence).
      destruct C2 as [C2|[h C2]]; [exact C2|]. unfold ttaken in T. rewrite C2 in T. destruct T.
Qed.
Lemma tso_bounded : forall s n s', treach true s -> trun ttaken s n s' -> (n <= 4 * toutstanding s + 1)%nat.
Proof.
  intros s n s' R X. destruct (sim_reach s R) as (q & c & RQ & M). destruct (trun_run s n s' X q c RQ M) as [q' RN].
  unfold toutstanding. rewrite (m_pubs _ _ _ M), (m_dels _ _ _ M). exact (bounded q n q' RQ RN).
Qed.

Lemma tso_not_blocked : forall s, treach true s -> exists s', tstep true s TCons = Some s' \/ tstep true s (TFlush Owner) = Some s'.
Proof.
  intros s R. destruct (tso_never_bad s R) as [NB _]. cbn [tstep]. unfold flush, tconsume. destruct (tcs s) eqn:Ec;
    try (eexists; left; reflexivity); try congruence.
  - unfold drained. destruct (tbuf s Owner) as [|x r] eqn:Eb; cbn; [eexists; left; reflexivity|eexists; right; reflexivity].
  - destruct (negb _); [|destruct (_ =? _)]; eexists; left; reflexivity.
  - destruct (negb _); eexists; left; reflexivity.
  - destruct (_ =? _); [|destruct (negb _)]; eexists; left; reflexivity.
  - destruct (negb _); eexists; left; reflexivity.
Qed.

Lemma tso_wait_ends : forall s, treach true s -> tstalled s -> exists u l s', texec true s l s' /\ ~ tstalled s' /\
  (l = [TFlush (Thr u)] \/ l = [TGo u; TFlush (Thr u)]).
Proof.
  intros s R T. destruct (sim_reach s R) as (q & c & RQ & M). apply (stalled_iff s q c RQ M) in T.
  destruct (stall_ends q RQ T) as (u & q' & (e & p & P) & S1 & NS).
  pose proof (reach_step _ _ _ RQ S1) as RQ'. exists u.
  assert (FL : forall s1 b, Sim s1 q c -> tbuf s1 (Thr u) = (if p =? 0 then SHead e else SNext p e) :: b ->
    exists s2, flush s1 (Thr u) = Some s2 /\ ~ tstalled s2).
  { intros s1 b M1 B1. unfold flush. rewrite B1. eexists. split; [reflexivity|]. destruct (Z.eqb_spec p 0) as [->|NZ].
    - destruct (sim_flush_head s1 q c u e b M1 B1) as (q2 & S2 & M2). rewrite S1 in S2. injection S2 as <-.
      rewrite (stalled_iff _ _ _ RQ' M2). exact NS.
    - destruct (sim_flush_next s1 q c u p e b RQ M1 B1) as (q2 & S2 & M2). rewrite S1 in S2. injection S2 as <-.
      rewrite (stalled_iff _ _ _ RQ' M2). exact NS. }
  pose proof (m_prd _ _ _ M u) as X. rewrite P in X. destruct (advs_from_link _ _ _ _ X) as [[B L]|(b & B & _)].
  - apply lagged_link in L.
    assert (T1 : exists s1, tgo true s u = Some s1) by (unfold tgo; rewrite L; eexists; reflexivity). destruct T1 as [s1 T1].
    pose proof (sim_go_push s q c u s1 M T1 ltac:(rewrite L; discriminate)) as M1.
    assert (B1 : tbuf s1 (Thr u) = [if p =? 0 then SHead e else SNext p e]).
    { unfold tgo in T1. rewrite L in T1. injection T1 as <-. unfold push. cbn. rewrite B. cbn. unfold updw. rewrite who_eqb_refl. reflexivity. }
    destruct (FL s1 [] M1 B1) as (s2 & F2 & NS2). exists [TGo u; TFlush (Thr u)], s2. split; [|split; [exact NS2|right; reflexivity]].
    apply (texec_cons true s (TGo u) s1); [exact T1|]. exact (texec_cons true s1 (TFlush (Thr u)) s2 [] s2 F2 (texec_nil true s2)).
  - destruct (FL s b M B) as (s2 & F2 & NS2). exists [TFlush (Thr u)], s2. split; [|split; [exact NS2|left; reflexivity]].
    exact (texec_cons true s (TFlush (Thr u)) s2 [] s2 F2 (texec_nil true s2)).
Qed.

(** ** Examples *)
Fixpoint tplay (f : bool) (s : tst) (l : list tact) : option tst :=
  match l with [] => Some s | a :: r => match tstep f s a with Some s1 => tplay f s1 r | None => None end end.
Lemma tplay_exec : forall f l s s', tplay f s l = Some s' -> texec f s l s'.
Proof.
  induction l as [|a l IH]; intros s s' H; cbn in H; [injection H as ->; constructor|].
  destruct (tstep f s a) as [s1|] eqn:E; [|discriminate]. econstructor; [exact E|]. exact (IH s1 s' H).
Qed.
Definition tz : tst := t0 (fun x => x + 7) (fun x => x * 3) (fun a => if a =? 300 then Thr 3 else if a =? 100 then Thr 1 else Thr 2).
Definition tend (f : bool) (l : list tact) : tst := match tplay f tz l with Some s => s | None => tz end.
Lemma tend_reach : forall f l, (match tplay f tz l with Some _ => true | None => false end) = true -> treach f (tend f l).
Proof.
  intros f l H. unfold tend. destruct (tplay f tz l) as [s|] eqn:E; [|discriminate].
  exists (fun x => x + 7), (fun x => x * 3), (fun a => if a =? 300 then Thr 3 else if a =? 100 then Thr 1 else Thr 2), l. exact (tplay_exec f l tz s E).
Qed.
(** Without the fence: the owner has read the head, its store of NULL waits in the buffer while it swaps the tail; thread 2 finds
    an empty queue and stores the head; then the store of the owner arrives. *)
Definition tl_lost : list tact :=
  [TStart 1 100 1001; TGo 1; TGo 1; TGo 1; TFlush (Thr 1); TFlush (Thr 1); TFlush (Thr 1); TGo 1; TGo 1; TFlush (Thr 1);
   TCons; TCons; TCons; TCons;
   TStart 2 200 2001; TGo 2; TGo 2; TGo 2; TFlush (Thr 2); TFlush (Thr 2); TFlush (Thr 2); TGo 2; TGo 2; TFlush (Thr 2);
   TFlush Owner; TCons; TCons; TCons; TCons].
(** With the fence: a link waits in the buffer of thread 2, which has returned and writes in another block. *)
Definition tl_stall : list tact :=
  [TStart 1 100 1001; TGo 1; TGo 1; TGo 1; TFlush (Thr 1); TFlush (Thr 1); TFlush (Thr 1); TGo 1; TGo 1; TFlush (Thr 1);
   TWrN (Thr 2) 200 5; TStart 2 200 2001; TGo 2; TGo 2; TGo 2; TFlush (Thr 2); TFlush (Thr 2); TFlush (Thr 2); TFlush (Thr 2); TGo 2; TGo 2;
   TWrN (Thr 2) 400 6; TCons; TCons; TCons; TFlush Owner; TCons].
