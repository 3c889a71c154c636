(** The queue of remote frees and handlers of its owner, in handlers and with a batch in hand. *)
From Verif Require Import MpscfModel MpscfSpec MpscfProofs MpscfProps SignalSpec SignalQueue.
From Coq Require Import ZArith List Bool Lia Permutation.
Import ListNotations.
Open Scope Z_scope.

(** Proof device (no code of its own in /repo). *)
Definition logged (s : qst) (l : list Z) : list (Z * Z) := map (fun e => (e, pay s e)) l.
(** The producer is about to link its entry to one of [F] (queue.h 168). *)
Definition hid (c : ppc) (F : list Z) : bool := match c with PLink _ x => existsb (Z.eqb x) F | _ => false end.
(** The state seen without those producers and with another trace (proof device, no code of its own in /repo). *)
Definition sh (s : qst) (F : list Z) (w : list event) : qst :=
  mkQ (nxt s) (pay s) (qhd s) (qtl s) (fun t => if hid (prd s t) F then PIdle else prd s t) (cns s) (busy s) w.
Lemma hid_in e x F : hid (PLink e x) F = true <-> In x F.
Proof. cbn. rewrite existsb_exists. split; [intros (y & H & E); apply Z.eqb_eq in E; subst y; exact H|intros H; exists x; split; [exact H|apply Z.eqb_refl]]. Qed.
Lemma hid_out e x F : ~ In x F -> hid (PLink e x) F = false.
Proof. intros N. destruct (hid (PLink e x) F) eqn:E; [|reflexivity]. apply hid_in in E. contradiction. Qed.
(** What is seen is there, and is not hidden. *)
Lemma seen s F w t c : prd (sh s F w) t = c -> c <> PIdle -> prd s t = c /\ hid c F = false.
Proof. cbn. destruct (hid (prd s t) F) eqn:E; intros <- N; [contradiction|]. split; [reflexivity|exact E]. Qed.
Lemma seen_link s F w t e p : prd (sh s F w) t = PLink e p <-> prd s t = PLink e p /\ ~ In p F.
Proof.
  split.
  - intros H. destruct (seen s F w t _ H ltac:(discriminate)) as (E & N). split; [exact E|]. intros I. apply (hid_in e) in I. congruence.
  - intros (E & N). cbn. rewrite E, (hid_out e p F N). reflexivity.
Qed.
Lemma seen_pre s F w t e : pre (prd (sh s F w) t) e <-> pre (prd s t) e.
Proof. cbn. destruct (prd s t) as [|a v|a v|a v|a v|a x|]; cbn; try tauto. destruct (existsb _ F); cbn; tauto. Qed.
Lemma seen_other s F w t c : (forall e p, c <> PLink e p) -> c <> PIdle -> (prd (sh s F w) t = c <-> prd s t = c).
Proof.
  intros N1 N2. split; [intros H; exact (proj1 (seen s F w t c H N2))|]. intros H. cbn. rewrite H. destruct c; try reflexivity. exfalso. exact (N1 _ _ eq_refl).
Qed.

(** ** States that agree where the invariant looks *)
Lemma inv_agree : forall s s' B Q, Inv s B Q -> (forall t, prd s' t = prd s t) -> qhd s' = qhd s -> qtl s' = qtl s -> cns s' = cns s -> busy s' = busy s ->
  tr s' = tr s -> (forall x, In x (B ++ Q) \/ (exists t, pre (prd s t) x) -> nxt s' x = nxt s x /\ pay s' x = pay s x) -> Inv s' B Q.
Proof.
  intros s s' B Q I EP EH ET EC EB EW EN.
  assert (Fin : forall x, In x (B ++ Q) -> nxt s' x = nxt s x) by (intros x H; exact (proj1 (EN x (or_introl H)))).
  assert (InB : forall x y, adj B x y \/ adj Q x y -> In x (B ++ Q)) by (intros x y H; exact (proj1 (adj_in2 _ _ _ _ H))).
  pose proof (i_cons _ _ _ I) as IC. destruct I. constructor; rewrite ?EH, ?ET, ?EB, ?EW; try assumption; intros.
  - rewrite i_log. f_equal. apply map_ext_in. intros x Hx. rewrite (proj2 (EN x (or_introl Hx))). reflexivity.
  - rewrite (Fin x (InB x y H)). destruct (i_link x y H) as [E|(E & t & P)]; [left; exact E|right; split; [exact E|exists t; rewrite EP; exact P]].
  - rewrite Fin; [exact (i_end l x H)|]. apply in_or_app. destruct H as [->| ->]; [left|right]; apply in_or_app; right; left; reflexivity.
  - destruct (i_head q l H) as [E|(E & [(t & P)|P])]; [left; exact E|right; split; [exact E|left; exists t; rewrite EP; exact P]|right; split; [exact E|right; rewrite EC; exact P]].
  - rewrite EP in H. rewrite EC. exact (i_pl0 t e H).
  - rewrite EP in H. destruct (i_plp t e p H H0) as (E1 & E2). split; [rewrite (Fin p (InB p e E2)); exact E1|exact E2].
  - rewrite EP in H, H0. exact (i_plu t u e p p' H H0).
  - rewrite EP in H. exact (i_pre t e H).
  - rewrite EP in H, H0. exact (i_preu t u e H H0).
  - rewrite EP in H. rewrite (proj2 (EN e (or_intror (ex_intro _ t (ltac:(destruct H as [E|[E|E]]; rewrite E; reflexivity) : pre (prd s t) e))))). exact (i_pay t e v H).
  - rewrite EP in H. rewrite (proj1 (EN e (or_intror (ex_intro _ t (ltac:(rewrite H; reflexivity) : pre (prd s t) e))))). exact (i_next t e v H).
  - rewrite EP. apply i_bad.
  - exact (cinv_frame s s' B Q IC EC EH Fin).
Qed.

(** ** The steps do not look at the trace or at hidden producers *)
Definition same (s s' : qst) : Prop := nxt s = nxt s' /\ pay s = pay s' /\ qhd s = qhd s' /\ qtl s = qtl s' /\ (forall t, prd s t = prd s' t) /\
  cns s = cns s' /\ busy s = busy s' /\ tr s = tr s'.
(** Proof device (no code of its own in /repo). *)
Definition visible (s : qst) (F : list Z) (a : act) : Prop := match a with Go t => hid (prd s t) F = false | _ => True end.
(** Proof device (no code of its own in /repo). *)
Definition adds (s : qst) (F : list Z) (a : act) (s1 : qst) (ev : list event) : Prop :=
  tr s1 = tr s ++ ev /\ (forall w, exists s2, step (sh s F w) a = Some s2 /\ same s2 (sh s1 F (w ++ ev))) /\
  (forall x, In x (map fst (pubs ev)) -> exists t v, prd s t = PSwap x v) /\
  (forall t e p, In p F -> (prd s1 t = PLink e p <-> prd s t = PLink e p)).
Lemma upd_seen pr u c F t : hid c F = false -> updp (fun t => if hid (pr t) F then PIdle else pr t) u c t = (if hid (updp pr u c t) F then PIdle else updp pr u c t).
Proof. intros N. unfold updp. destruct (Nat.eqb t u); [rewrite N; reflexivity|reflexivity]. Qed.
Lemma upd_link pr u c F : hid (pr u) F = false -> hid c F = false -> forall t e p, In p F -> (updp pr u c t = PLink e p <-> pr t = PLink e p).
Proof.
  intros N1 N2 t e p H. unfold updp. destruct (Nat.eqb_spec t u) as [->|_]; [|tauto]. apply (hid_in e) in H. split; intros E; congruence.
Qed.
Lemma step_adds : forall s F a s1, step s a = Some s1 -> visible s F a -> ~ In (qtl s) F -> exists ev, adds s F a s1 ev.
Proof.
  intros [n p h t pr cn b tr0] F [u e v|u| |x y z] s1 H V T; cbn [step visible] in *; unfold adds; cbn in V, T.
  - unfold start in H. cbn in H. destruct (pr u) eqn:P; try discriminate. destruct ((e =? 0) || b e) eqn:Z0; [discriminate|].
    injection H as <-. exists [EStart u e v]. split; [reflexivity|]. split; [|split; [intros x []|]].
    + intros w. eexists. split; [cbn; unfold start; cbn; rewrite P; cbn; rewrite Z0; reflexivity|].
      repeat (split; [reflexivity|]). split; [|repeat split]. intros k. cbn. apply (upd_seen pr u (PPay e v) F). reflexivity.
    + cbn. apply upd_link; [rewrite P; reflexivity|reflexivity].
  - unfold go in H. cbn in H. destruct (pr u) as [|e v|e v|e v|e v|e q|] eqn:P; try discriminate.
    1-4: injection H as <-.
    1-3: exists [].
    4: exists [EPub u e v].
    1-4: (split; [cbn; rewrite ?app_nil_r; reflexivity|]; split; [|split]).
    1,4,7,10: intros w; eexists; (split; [cbn; unfold go; cbn; rewrite P; cbn; reflexivity|]); rewrite ?app_nil_r;
      repeat (split; [reflexivity|]); (split; [|repeat split]); intros k; cbn; apply upd_seen; first [reflexivity|apply hid_out; exact T].
    1,3,5: intros x [].
    1-3: cbn; apply upd_link; [rewrite P; reflexivity|reflexivity].
    1: intros x [<-|[]]; exists u, v; exact P.
    1: cbn; apply upd_link; [rewrite P; reflexivity|apply hid_out; exact T].
    destruct (q =? 0) eqn:Q0; [|destruct (b q) eqn:Bq]; injection H as <-.
    1-2: exists [ERet u].
    3: exists [].
    1-3: (split; [cbn; rewrite ?app_nil_r; reflexivity|]; split; [|split; [intros x []|cbn; apply upd_link; [rewrite P; exact V|reflexivity]]]).
    1-3: intros w; eexists; (split; [cbn [step]; unfold go; cbn [sh prd]; rewrite P, V, Q0; cbn [sh busy]; rewrite ?Bq; reflexivity|]); rewrite ?app_nil_r;
      repeat (split; [reflexivity|]); (split; [|repeat split]); intros k; cbn -[hid]; apply upd_seen; reflexivity.
  - unfold consume in H. cbn in H.
    assert (K : forall s2 ev, tr s2 = tr0 ++ ev -> pubs ev = [] -> prd s2 = pr ->
      (forall w, step (sh (mkQ n p h t pr cn b tr0) F w) Cons = Some (sh s2 F (w ++ ev))) -> Some s2 = Some s1 -> exists ev, adds (mkQ n p h t pr cn b tr0) F Cons s1 ev).
    { intros s2 ev E1 E2 E3 E4 E. injection E as <-. exists ev. split; [exact E1|]. split; [|split; [rewrite E2; intros x []|rewrite E3; cbn; tauto]].
      intros w. exists (sh s2 F (w ++ ev)). split; [apply E4|]. repeat split. }
    assert (K0 : forall s2, tr s2 = tr0 -> prd s2 = pr ->
      (forall w, step (sh (mkQ n p h t pr cn b tr0) F w) Cons = Some (sh s2 F w)) -> Some s2 = Some s1 -> exists ev, adds (mkQ n p h t pr cn b tr0) F Cons s1 ev).
    { intros s2 E1 E3 E4. apply (K s2 []); [rewrite app_nil_r; exact E1|reflexivity|exact E3|]. intros w. rewrite app_nil_r. apply E4. }
    destruct cn as [| |hh|hh|hh tt c|hh tt c|e|e m|]; try discriminate.
    1-4: revert H; apply K0; [reflexivity|reflexivity|]; intros w; reflexivity.
    + destruct (b c) eqn:Bc; cbn [negb] in H; [destruct (c =? tt) eqn:Ct|]; revert H; (apply K0; [reflexivity|reflexivity|]);
        intros w; cbn; unfold consume; cbn; rewrite Bc; cbn [negb]; rewrite ?Ct; reflexivity.
    + destruct (b c) eqn:Bc; cbn [negb] in H; revert H; (apply K0; [reflexivity|reflexivity|]); intros w; cbn; unfold consume; cbn; rewrite Bc; reflexivity.
    + destruct (e =? 0) eqn:E0; [|destruct (b e) eqn:Be; cbn [negb] in H]; revert H; (apply K0; [reflexivity|reflexivity|]);
        intros w; cbn; unfold consume; cbn; rewrite E0, ?Be; reflexivity.
    + destruct (b e) eqn:Be; cbn [negb] in H; revert H.
      * apply (K _ [EDel e (p e)]); [reflexivity|reflexivity|reflexivity|]. intros w. cbn. unfold consume. cbn. rewrite Be. reflexivity.
      * apply K0; [reflexivity|reflexivity|]. intros w. cbn. unfold consume. cbn. rewrite Be. reflexivity.
  - cbn in H. destruct (b x) eqn:Bx; [discriminate|]. injection H as <-. exists []. split; [cbn; rewrite app_nil_r; reflexivity|].
    split; [|split; [intros k []|cbn; tauto]]. intros w. rewrite app_nil_r. eexists. split; [cbn; rewrite Bx; reflexivity|]. repeat split.
Qed.

(** ** Batches put aside *)
Definition aside (s : qst) (F B Q : list Z) : Prop :=
  forall x, In x F -> busy s x = true /\ (forall t, ~ pre (prd s t) x) /\ ~ In x (B ++ Q).
(** Links that were made stay. *)
Definition kept (s s' : qst) (F : list Z) : Prop := forall x, In x F -> pay s' x = pay s x /\ (nxt s x <> 0 -> nxt s' x = nxt s x).
(** Proof device (no code of its own in /repo). *)
Definition held (s : qst) (A : list Z) : Prop :=
  (forall x y, adj A x y -> nxt s x = y \/ (nxt s x = 0 /\ exists t, prd s t = PLink y x)) /\
  (forall l x, A = l ++ [x] -> nxt s x = 0) /\
  (forall t e p, prd s t = PLink e p -> In p A -> nxt s p = 0 /\ adj A p e).
(** Proof device (no code of its own in /repo). *)
Record FInv (s : qst) (Fs : list (list Z)) (B Q : list Z) : Prop := {
  f_inv : exists w, Inv (sh s (concat Fs) w) B Q;
  f_aside : aside s (concat Fs) B Q;
  f_nz : ~ In 0 (concat Fs);
  f_nd : NoDup (concat Fs);
  f_held : forall A, In A Fs -> held s A;
  f_plu : forall t u e p p', prd s t = PLink e p -> prd s u = PLink e p' -> In p (concat Fs) -> In p' (concat Fs) -> t = u;
  f_log : Permutation (pubs (tr s)) (dels (tr s) ++ logged s (concat Fs ++ B ++ Q)) }.
Lemma kept_refl s F : kept s s F.
Proof. intros x _. split; reflexivity. Qed.
Lemma kept_trans s s1 s2 F : kept s s1 F -> kept s1 s2 F -> kept s s2 F.
Proof. intros A B x H. destruct (A x H) as (A1 & A2), (B x H) as (B1 & B2). split; [congruence|]. intros N. rewrite <- (A2 N). apply B2. rewrite (A2 N). exact N. Qed.
Lemma logged_app s a b : logged s (a ++ b) = logged s a ++ logged s b.
Proof. apply map_app. Qed.
Lemma logged_kept s s' F : kept s s' F -> logged s' F = logged s F.
Proof. intros K. apply map_ext_in. intros x H. rewrite (proj1 (K x H)). reflexivity. Qed.
Lemma logged_fst s l : map fst (logged s l) = l.
Proof. unfold logged. rewrite map_map. cbn. apply map_id. Qed.
Lemma in_batch (A : list Z) Fs x : In A Fs -> In x A -> In x (concat Fs).
Proof. intros H1 H2. apply in_concat. exists A. split; assumption. Qed.
Lemma nd_batch (A : list Z) : forall Fs, In A Fs -> NoDup (concat Fs) -> NoDup A.
Proof.
  induction Fs as [|B Fs IH]; intros H N; [destruct H|]. cbn in N. destruct H as [->|H]; [exact (nodup_app_l _ _ N)|exact (IH H (nodup_app_r _ _ N))].
Qed.

(** What is put aside is left as it is by the producers that are seen and by the owner. *)
Definition left_alone (s s' : qst) (F : list Z) : Prop :=
  forall x, In x F -> (nxt s' x = nxt s x /\ pay s' x = pay s x) /\ busy s' x = true /\ forall t, ~ pre (prd s' t) x.
Lemma alone_same s s' F B Q : aside s F B Q -> nxt s' = nxt s -> pay s' = pay s -> busy s' = busy s -> prd s' = prd s -> left_alone s s' F.
Proof. intros A E1 E2 E3 E4 x H. destruct (A x H) as (A1 & A2 & _). rewrite E1, E2, E3, E4. split; [split; reflexivity|split; assumption]. Qed.
Lemma pre_upd pr u c x t : (forall t, ~ pre (pr t) x) -> ~ pre c x -> ~ pre (updp pr u c t) x.
Proof. intros A C. unfold updp. destruct (Nat.eqb t u); [exact C|apply A]. Qed.
Lemma step_alone : forall s w F B Q a s', Inv (sh s F w) B Q -> aside s F B Q -> visible s F a -> step s a = Some s' -> left_alone s s' F.
Proof.
  intros s w F B Q [u e v|u| |a y z] s' I A V H; cbn [step visible] in *.
  - unfold start in H. destruct (prd s u) eqn:P; try discriminate. destruct (e =? 0); [discriminate|]. cbn [orb] in H. destruct (busy s e) eqn:Be; [discriminate|].
    injection H as <-. intros x Hx. split; [split; reflexivity|]. destruct (A x Hx) as (A1 & A2 & _).
    assert (N : x <> e) by congruence. cbn. unfold updb. pose proof N as N'. apply Z.eqb_neq in N'. rewrite N'. split; [exact A1|].
    intros t. apply pre_upd; [exact A2|]. cbn. congruence.
  - unfold go in H. destruct (prd s u) as [|e v|e v|e v|e v|e q|] eqn:P; try discriminate.
    1-4: injection H as <-; intros x Hx; destruct (A x Hx) as (A1 & A2 & _); assert (N : x <> e) by (intros ->; apply (A2 u); rewrite P; reflexivity);
      cbn; rewrite ?upd_other by exact N; (split; [split; reflexivity|]); (split; [exact A1|]); intros t; apply pre_upd; [exact A2|]; cbn; congruence || tauto.
    assert (Nq : forall x, In x F -> x <> q) by (intros x Hx ->; apply (hid_in e) in Hx; congruence).
    destruct (q =? 0); [|destruct (busy s q)]; injection H as <-; intros x Hx; destruct (A x Hx) as (A1 & A2 & _); cbn; rewrite ?upd_other by exact (Nq x Hx);
      (split; [split; reflexivity|]); (split; [exact A1|]); intros t; (apply pre_upd; [exact A2|]); cbn; tauto.
  - pose proof (i_cons _ _ _ I) as IC. unfold cinv in IC. cbn in IC. unfold consume in H.
    destruct (cns s) as [| |hh|hh|hh tt c|hh tt c|e|e m|]; try discriminate.
    1-4: injection H as <-; apply (alone_same s _ F B Q A); reflexivity.
    + destruct (negb (busy s c)); [|destruct (c =? tt)]; injection H as <-; apply (alone_same s _ F B Q A); reflexivity.
    + destruct (negb (busy s c)); injection H as <-; apply (alone_same s _ F B Q A); reflexivity.
    + destruct (e =? 0); [|destruct (negb (busy s e))]; injection H as <-; apply (alone_same s _ F B Q A); reflexivity.
    + destruct (negb (busy s e)); injection H as <-; [apply (alone_same s _ F B Q A); reflexivity|].
      destruct IC as (l & -> & _). intros x Hx; destruct (A x Hx) as (A1 & A2 & A3); cbn. split; [split; reflexivity|].
      unfold updb. destruct (Z.eqb_spec x e) as [->|N]; [exfalso; apply A3; left; reflexivity|]. split; assumption.
  - destruct (busy s a) eqn:Ba; [discriminate|]. injection H as <-. intros x Hx; destruct (A x Hx) as (A1 & A2 & _); cbn.
    assert (N : x <> a) by congruence. rewrite !upd_other by exact N. split; [split; reflexivity|split; assumption].
Qed.
Lemma held_alone s s' Fs A : held s A -> In A Fs -> left_alone s s' (concat Fs) ->
  (forall t e p, In p (concat Fs) -> (prd s' t = PLink e p <-> prd s t = PLink e p)) -> held s' A.
Proof.
  intros (H1 & H2 & H3) HA L P. assert (N : forall x, In x A -> nxt s' x = nxt s x) by (intros x Hx; exact (proj1 (proj1 (L x (in_batch A Fs x HA Hx))))).
  split; [|split].
  - intros x y AD. pose proof (proj1 (adj_in _ _ _ AD)) as Hx. rewrite (N x Hx). destruct (H1 x y AD) as [E|(E & t & K)]; [left; exact E|right; split; [exact E|]].
    exists t. apply P; [exact (in_batch A Fs x HA Hx)|exact K].
  - intros l x E. rewrite N; [exact (H2 l x E)|]. rewrite E. apply in_or_app. right. left. reflexivity.
  - intros t e p K Hp. apply P in K; [|exact (in_batch A Fs p HA Hp)]. rewrite (N p Hp). exact (H3 t e p K Hp).
Qed.
Lemma tail_out s w F B Q : Inv (sh s F w) B Q -> aside s F B Q -> ~ In 0 F -> ~ In (qtl s) F.
Proof.
  intros I A Z H. pose proof (i_tl _ _ _ I) as E. cbn in E. rewrite E in H. destruct Q as [|q Q]; [exact (Z H)|].
  apply (proj2 (proj2 (A _ H))). apply in_or_app. right. destruct (@exists_last _ (q :: Q)) as (l & x & El); [discriminate|]. rewrite El, last_last.
  apply in_or_app. right. left. reflexivity.
Qed.

Lemma f_visible : forall s Fs B Q a s', FInv s Fs B Q -> visible s (concat Fs) a -> step s a = Some s' -> exists B' Q', FInv s' Fs B' Q' /\ kept s s' (concat Fs).
Proof.
  intros s Fs B Q a s' [(w & I) A NZ ND HL PU L] V H. destruct (step_adds s _ a s' H V (tail_out s w _ B Q I A NZ)) as (ev & T & W & P & LK).
  destruct (W w) as (s2 & W1 & W2). destruct (inv_step _ B Q a _ I W1) as (B' & Q' & I2).
  assert (I' : Inv (sh s' (concat Fs) (w ++ ev)) B' Q').
  { destruct W2 as (E1 & E2 & E3 & E4 & E5 & E6 & E7 & E8). apply (inv_agree s2 _ B' Q' I2); try (symmetry; assumption); [intros t; symmetry; apply E5|].
    intros x _. rewrite E1, E2. split; reflexivity. }
  pose proof (step_alone s w _ B Q a s' I A V H) as A'.
  assert (K : kept s s' (concat Fs)) by (intros x Hx; destruct (A' x Hx) as ((E1 & E2) & _); split; [exact E2|intros _; exact E1]).
  assert (M : logged s (B ++ Q) ++ pubs ev = dels ev ++ logged s' (B' ++ Q')).
  { pose proof (i_log _ _ _ I) as L0. pose proof (i_log _ _ _ I') as L1. cbn in L0, L1. rewrite pubs_app, dels_app, L0, <- !app_assoc in L1.
    apply app_inv_head in L1. exact L1. }
  exists B', Q'. split; [|exact K]. constructor.
  - exists (w ++ ev). exact I'.
  - intros x Hx. destruct (A' x Hx) as (_ & A1 & A2). split; [exact A1|]. split; [exact A2|]. intros Hi. destruct (A x Hx) as (_ & A3 & A4).
    assert (H0 : In x (map fst (logged s (B ++ Q) ++ pubs ev))).
    { rewrite M, map_app, logged_fst. apply in_or_app. right. exact Hi. }
    rewrite map_app, logged_fst in H0. apply in_app_or in H0 as [H0|H0]; [exact (A4 H0)|].
    destruct (P x H0) as (t & v & E). apply (A3 t). rewrite E. reflexivity.
  - exact NZ.
  - exact ND.
  - intros C HC. exact (held_alone s s' Fs C (HL C HC) HC A' LK).
  - intros t u e p p' K1 K2 K3 K4. apply LK in K1; [|exact K3]. apply LK in K2; [|exact K4]. exact (PU t u e p p' K1 K2 K3 K4).
  - rewrite T, pubs_app, dels_app, logged_app, (logged_kept s s' _ K).
    rewrite logged_app in L. rewrite L. rewrite <- !app_assoc. apply Permutation_app_head.
    rewrite M. rewrite !app_assoc. apply Permutation_app_tail. apply Permutation_app_comm.
Qed.
(** A producer links its entry to one that is put aside. *)
Lemma f_hidden_go : forall s Fs B Q t s', FInv s Fs B Q -> hid (prd s t) (concat Fs) = true -> step s (Go t) = Some s' -> FInv s' Fs B Q /\ kept s s' (concat Fs).
Proof.
  intros s Fs B Q t s' [(w & I) A NZ ND HL PU L] V H. destruct (prd s t) as [| | | | |y x|] eqn:P; try discriminate V.
  apply hid_in in V. assert (Nx : x <> 0) by (intros ->; exact (NZ V)). destruct (A x V) as (Bx & Px & Qx).
  cbn [step] in H. unfold go in H. rewrite P in H. pose proof Nx as Nx'. apply Z.eqb_neq in Nx'. rewrite Nx', Bx in H. injection H as <-.
  assert (X0 : exists C, In C Fs /\ In x C) by (apply in_concat in V; destruct V as (C & V1 & V2); exists C; split; assumption).
  destruct X0 as (C & HC & HxC). destruct (HL C HC) as (_ & _ & H3). destruct (H3 t y x P HxC) as (N0 & ADx).
  assert (K : kept s (log (set_prod (set_nxt s x y) t PIdle) (ERet t)) (concat Fs)).
  { intros z Hz. cbn. split; [reflexivity|]. intros Nz. apply upd_other. congruence. }
  split; [|exact K]. constructor.
  - exists w. apply (inv_agree (sh s (concat Fs) w) _ B Q I); try reflexivity.
    + intros u. cbn -[hid]. unfold updp. destruct (Nat.eqb_spec u t) as [->|_]; [|reflexivity]. rewrite P. cbn [hid].
      apply (hid_in y) in V. cbn [hid] in V. rewrite V. reflexivity.
    + intros z Hz. cbn. split; [|reflexivity]. apply upd_other. intros ->. destruct Hz as [Hz|(u & Hz)]; [exact (Qx Hz)|].
      apply seen_pre in Hz. exact (Px u Hz).
  - intros z Hz. destruct (A z Hz) as (A1 & A2 & A3). split; [exact A1|]. split; [|exact A3]. intros u. cbn. apply pre_upd; [exact A2|]. cbn. tauto.
  - exact NZ.
  - exact ND.
  - intros D HD. destruct (HL D HD) as (D1 & D2 & D3). split; [|split].
    + intros a b AD. cbn. destruct (Z.eq_dec a x) as [->|Na].
      * left. rewrite upd_same. destruct (D3 t y x P (proj1 (adj_in _ _ _ AD))) as (_ & AD2). exact (adj_fun D x y b (nd_batch D Fs HD ND) AD2 AD).
      * rewrite upd_other by exact Na. destruct (D1 a b AD) as [E|(E & u & Ku)]; [left; exact E|right; split; [exact E|]]. exists u.
        rewrite updp_other; [exact Ku|]. intros ->. rewrite P in Ku. injection Ku as _ E2. congruence.
    + intros l a E. cbn. rewrite upd_other; [exact (D2 l a E)|]. intros ->.
      assert (HxD : In x D) by (rewrite E; apply in_or_app; right; left; reflexivity). destruct (D3 t y x P HxD) as (_ & AD2).
      exact (adj_not_last D x y l (nd_batch D Fs HD ND) AD2 E).
    + intros u e p Ku Hp. cbn in Ku. unfold updp in Ku. destruct (Nat.eqb_spec u t) as [->|Nu]; [discriminate Ku|].
      destruct (D3 u e p Ku Hp) as (E1 & E2). split; [|exact E2]. cbn. rewrite upd_other; [exact E1|]. intros ->.
      destruct (D3 t y x P Hp) as (_ & AD2). assert (E : e = y) by exact (adj_fun D x e y (nd_batch D Fs HD ND) E2 AD2). subst e.
      apply Nu. exact (PU u t y x x Ku P V V).
  - intros u u' e p p' K1 K2 K3 K4. cbn in K1, K2. unfold updp in K1, K2. destruct (Nat.eqb u t); [discriminate K1|]. destruct (Nat.eqb u' t); [discriminate K2|].
    exact (PU u u' e p p' K1 K2 K3 K4).
  - cbn. rewrite pubs_app, dels_app. cbn. rewrite !app_nil_r. exact L.
Qed.
Lemma f_step : forall s Fs B Q a s', FInv s Fs B Q -> step s a = Some s' -> exists B' Q', FInv s' Fs B' Q' /\ kept s s' (concat Fs).
Proof.
  intros s Fs B Q a s' I H.
  assert (D : visible s (concat Fs) a \/ exists t, a = Go t /\ hid (prd s t) (concat Fs) = true).
  { destruct a as [u e v|u| |x y z]; try (left; exact Logic.I). cbn. destruct (hid (prd s u) (concat Fs)) eqn:E; [right; exists u; split; [reflexivity|exact E]|left; reflexivity]. }
  destruct D as [V|(t & -> & V)]; [exact (f_visible s Fs B Q a s' I V H)|]. exists B, Q. exact (f_hidden_go s Fs B Q t s' I V H).
Qed.

(** ** A handler puts the batch aside and takes it back *)
Definition tr_of (s : qst) (l : list Z) : list event := map (fun e => EPub 0 e (pay s e)) l.
Lemma tr_of_log s l : pubs (tr_of s l) = dels (tr_of s l) ++ logged s l.
Proof.
  assert (D : forall l, dels (tr_of s l) = []) by (induction l0 as [|x l0 IH]; [reflexivity|exact IH]). rewrite D. cbn [app].
  induction l as [|x l IH]; [reflexivity|]. cbn. f_equal. exact IH.
Qed.
Lemma nd_join : forall (B F : list Z), NoDup B -> NoDup F -> (forall x, In x B -> ~ In x F) -> NoDup (B ++ F).
Proof.
  induction B as [|b B IH]; intros F N1 N2 D; [exact N2|]. cbn. inversion N1; subst. constructor.
  - intros E. apply in_app_or in E as [E|E]; [contradiction|]. exact (D b (or_introl eq_refl) E).
  - apply IH; [assumption|exact N2|]. intros x Hx. exact (D x (or_intror Hx)).
Qed.

(** The owner has a batch in hand. *)
Definition in_hand (c : cpc) : Prop :=
  (exists h t k, c = CWait h t k) \/ (exists h t k, c = CAdv h t k) \/ (exists e, c = CWalk e) \/ exists e n, c = CDel e n.
Lemma hand_swap c : in_hand c -> forall h, c <> CSwap h.
Proof. intros [(a & b & d & ->)|[(a & b & d & ->)|[(e & ->)|(e & n & ->)]]] h; discriminate. Qed.
Lemma inv_aside : forall s w F B Q, Inv (sh s F w) B Q -> aside s F B Q -> ~ In 0 F -> (forall h, cns s <> CSwap h) ->
  Inv (sh (set_cons s CIdle) (B ++ F) (tr_of s Q)) [] Q.
Proof.
  intros s w F B Q I A NZ NS.
  assert (SL : forall t e p, prd (sh (set_cons s CIdle) (B ++ F) (tr_of s Q)) t = PLink e p -> prd (sh s F w) t = PLink e p /\ ~ In p B).
  { intros t e p H. apply seen_link in H as (H & N). split; [apply seen_link; split; [exact H|]|]; intros K; apply N; apply in_or_app; tauto. }
  assert (SB : forall t e p, prd (sh s F w) t = PLink e p -> ~ In p B -> prd (sh (set_cons s CIdle) (B ++ F) (tr_of s Q)) t = PLink e p).
  { intros t e p H N. apply seen_link in H as (H & NF). apply seen_link. split; [exact H|]. intros K. apply in_app_or in K. tauto. }
  assert (SP : forall t e, pre (prd (sh (set_cons s CIdle) (B ++ F) (tr_of s Q)) t) e -> pre (prd (sh s F w) t) e).
  { intros t e H. apply seen_pre in H. apply seen_pre. exact H. }
  assert (SO : forall t c, (forall e p, c <> PLink e p) -> c <> PIdle -> prd (sh (set_cons s CIdle) (B ++ F) (tr_of s Q)) t = c -> prd (sh s F w) t = c).
  { intros t c N1 N2 H. apply (proj1 (seen_other _ _ _ t c N1 N2)) in H. apply (proj2 (seen_other _ _ _ t c N1 N2)). exact H. }
  assert (NB : forall x, In x Q -> ~ In x B) by (intros x H K; exact (nodup_app_x _ _ x (i_nd _ _ _ I) K H)).
  assert (Z0 : ~ In 0 B) by (intros K; apply (i_nz _ _ _ I); apply in_or_app; left; exact K).
  destruct I. constructor; intros.
  - exact (tr_of_log s Q).
  - exact (nodup_app_r _ _ i_nd).
  - intros H. apply i_nz. apply in_or_app. right. exact H.
  - apply i_busy. apply in_or_app. right. assumption.
  - exact i_tl.
  - destruct H as [H|H]; [exfalso; exact (adj_nil _ _ H)|]. destruct (i_link x y (or_intror H)) as [E|(E & t & P)]; [left; exact E|right; split; [exact E|]].
    exists t. apply SB; [exact P|]. apply NB. exact (proj1 (adj_in _ _ _ H)).
  - destruct H as [H|H]; [destruct l; discriminate H|]. exact (i_end l x (or_intror H)).
  - exact (i_empty H).
  - destruct (i_head q l H) as [E|(E & [(t & P)|E1])]; [left; exact E|right; split; [exact E|left; exists t; apply SB; [exact P|exact Z0]]|exfalso; exact (NS _ E1)].
  - apply SL in H as (H & _). destruct (i_pl0 t e H) as (E1 & E2 & _). split; [exact E1|]. split; [exact E2|]. intros h. discriminate.
  - apply SL in H as (H & N). destruct (i_plp t e p H H0) as (E1 & [E2|E2]); [exfalso; exact (N (proj1 (adj_in _ _ _ E2)))|split; [exact E1|right; exact E2]].
  - apply SL in H as (H & _). apply SL in H0 as (H0 & _). exact (i_plu t u e p p' H H0).
  - apply SP in H. destruct (i_pre t e H) as (E1 & E2 & E3). split; [exact E1|]. split; [exact E2|]. intros E4. apply E3. apply in_or_app. right. exact E4.
  - exact (i_preu t u e (SP t e H) (SP u e H0)).
  - apply (i_pay t e v). destruct H as [H|[H|H]]; [left|right; left|right; right]; (apply SO; [discriminate|discriminate|exact H]).
  - apply (i_next t e v). apply SO; [discriminate|discriminate|exact H].
  - intros H. apply (i_bad t). apply SO; [discriminate|discriminate|exact H].
  - reflexivity.
Qed.
Lemma put_aside : forall s Fs B Q, FInv s Fs B Q -> (forall h, cns s <> CSwap h) -> FInv (set_cons s CIdle) (B :: Fs) [] Q.
Proof.
  intros s Fs B Q [(w & I) A NZ ND HL PU L] NS.
  assert (BF : forall x, In x B -> ~ In x (concat Fs)) by (intros x H K; apply (proj2 (proj2 (A x K))); apply in_or_app; left; exact H).
  assert (HB : held s B).
  { split; [|split].
    - intros x y AD. destruct (i_link _ _ _ I x y (or_introl AD)) as [E|(E & t & P)]; [left; exact E|right; split; [exact E|]]. exists t. apply seen_link in P. exact (proj1 P).
    - intros l x E. exact (i_end _ _ _ I l x (or_introl E)).
    - intros t e p P Hp. assert (Np : p <> 0) by (intros ->; apply (i_nz _ _ _ I); apply in_or_app; left; exact Hp).
      destruct (i_plp _ _ _ I t e p) as (E1 & [E2|E2]); [apply seen_link; split; [exact P|exact (BF p Hp)]|exact Np|split; [exact E1|exact E2]|].
      exfalso. exact (nodup_app_x _ _ p (i_nd _ _ _ I) Hp (proj1 (adj_in _ _ _ E2))). }
  constructor; cbn [concat].
  - exists (tr_of s Q). exact (inv_aside s w _ B Q I A NZ NS).
  - intros x Hx. apply in_app_or in Hx as [Hx|Hx].
    + split; [exact (i_busy _ _ _ I x (in_or_app _ _ _ (or_introl Hx)))|]. split; [|intros E; exact (nodup_app_x _ _ x (i_nd _ _ _ I) Hx E)].
      intros t E. apply (proj2 (proj2 (i_pre _ _ _ I t x (proj2 (seen_pre s _ w t x) E)))). apply in_or_app. left. exact Hx.
    + destruct (A x Hx) as (A1 & A2 & A3). split; [exact A1|]. split; [exact A2|]. intros E. apply A3. apply in_or_app. right. exact E.
  - intros H. apply in_app_or in H as [H|H]; [|exact (NZ H)]. apply (i_nz _ _ _ I). apply in_or_app. left. exact H.
  - apply nd_join; [exact (nodup_app_l _ _ (i_nd _ _ _ I))|exact ND|exact BF].
  - intros C [<-|HC]; [exact HB|exact (HL C HC)].
  - assert (EB : forall t e p, prd s t = PLink e p -> In p B -> In e B) by (intros t e p P Hp; exact (proj2 (adj_in _ _ _ (proj2 (proj2 (proj2 HB) t e p P Hp))))).
    assert (EF : forall t e p, prd s t = PLink e p -> In p (concat Fs) -> In e (concat Fs)).
    { intros t e p P Hp. apply in_concat in Hp as (C & H1 & H2). destruct (HL C H1) as (_ & _ & H3). exact (in_batch C Fs e H1 (proj2 (adj_in _ _ _ (proj2 (H3 t e p P H2))))). }
    intros t u e p p' P1 P2 H1 H2. apply in_app_or in H1. apply in_app_or in H2. cbn in P1, P2. destruct H1 as [H1|H1], H2 as [H2|H2].
    + apply (i_plu _ _ _ I t u e p p'); apply seen_link; (split; [assumption|apply BF; assumption]).
    + exfalso. exact (BF e (EB t e p P1 H1) (EF u e p' P2 H2)).
    + exfalso. exact (BF e (EB u e p' P2 H2) (EF t e p P1 H1)).
    + exact (PU t u e p p' P1 P2 H1 H2).
  - cbn. rewrite L. apply Permutation_app_head. unfold logged. cbn. apply Permutation_map. rewrite !app_assoc. apply Permutation_app_tail. apply Permutation_app_comm.
Qed.
Lemma hand_cinv s s1 w F B Q Q1 : Inv (sh s F w) B Q -> in_hand (cns s) -> kept s s1 B -> forall w1, cinv (sh (set_cons s1 (cns s)) F w1) B Q1.
Proof.
  intros I C K w1. pose proof (i_cons _ _ _ I) as IC. pose proof (i_nz _ _ _ I) as NZ. unfold cinv in *. cbn in *.
  assert (N : forall D, (forall x, In x D -> In x B) -> (forall x y, adj D x y -> nxt s x = y) -> forall x y, adj D x y -> nxt s1 x = y).
  { intros D S H x y AD. pose proof (H x y AD) as E. destruct (adj_in _ _ _ AD) as (Hx & Hy). rewrite (proj2 (K x (S x Hx))); [exact E|].
    rewrite E. intros ->. apply NZ. apply in_or_app. left. exact (S 0 Hy). }
  assert (SB : forall B1 (cur : Z) B2, B = B1 ++ cur :: B2 -> forall x, In x (B1 ++ [cur]) -> In x B).
  { intros B1 cur B2 -> x H. apply in_app_or in H as [H|[->|[]]]; apply in_or_app; [left; exact H|right; left; reflexivity]. }
  destruct C as [(a & b & d & C)|[(a & b & d & C)|[(e & C)|(e & n & C)]]]; rewrite C in *.
  - destruct IC as (B1 & B2 & E1 & E2 & E3 & E4). exists B1, B2. split; [exact E1|]. split; [exact E2|]. split; [exact E3|].
    exact (N _ (SB B1 d B2 E1) E4).
  - destruct IC as (B1 & B2 & E1 & E2 & E3 & E4 & E5 & E6). exists B1, B2. split; [exact E1|]. split; [exact E2|]. split; [exact E3|].
    split; [exact (N _ (SB B1 d B2 E1) E4)|]. split; [exact E5|]. assert (Hd : In d B) by (rewrite E1; apply in_or_app; right; left; reflexivity).
    rewrite (proj2 (K d Hd) E6). exact E6.
  - destruct IC as (E & H). split; [exact E|]. exact (N B (fun x H => H) H).
  - destruct IC as (l & E1 & E2 & H). exists l. split; [exact E1|]. split; [exact E2|]. exact (N B (fun x H => H) H).
Qed.
Lemma take_back : forall s Fs B Q s1 Q1, FInv s Fs B Q -> in_hand (cns s) -> FInv s1 (B :: Fs) [] Q1 -> cns s1 = CIdle ->
  kept s s1 (B ++ concat Fs) -> FInv (set_cons s1 (cns s)) Fs B Q1.
Proof.
  intros s Fs B Q s1 Q1 [(w & I) A NZ ND _ _ _] C [(w1 & I1) A1 NZ1 ND1 HL1 PU1 L1] C1 K. cbn [concat] in *.
  assert (KB : kept s s1 B) by (intros x Hx; apply K; apply in_or_app; left; exact Hx).
  assert (AB : forall x, In x B -> busy s1 x = true /\ (forall t, ~ pre (prd s1 t) x) /\ ~ In x Q1) by (intros x Hx; exact (A1 x (in_or_app _ _ _ (or_introl Hx)))).
  assert (BF : forall x, In x B -> ~ In x (concat Fs)) by (intros x H1 H2; exact (nodup_app_x _ _ x ND1 H1 H2)).
  destruct (HL1 B (or_introl eq_refl)) as (HB1 & HB2 & HB3).
  pose proof (hand_swap _ C) as NS. pose proof (hand_cinv s s1 w _ B Q Q1 I C KB (tr_of s1 (B ++ Q1))) as CI.
  set (T := tr_of s1 (B ++ Q1)) in *. set (F := concat Fs) in *.
  assert (SL : forall t e p, prd (sh (set_cons s1 (cns s)) F T) t = PLink e p -> (In p B /\ prd s1 t = PLink e p) \/ prd (sh s1 (B ++ F) w1) t = PLink e p).
  { intros t e p H. apply seen_link in H as (H & N). destruct (in_dec Z.eq_dec p B) as [Hp|Hp]; [left; split; [exact Hp|exact H]|right].
    apply seen_link. split; [exact H|]. intros E. apply in_app_or in E. tauto. }
  assert (SB : forall t e p, prd (sh s1 (B ++ F) w1) t = PLink e p -> prd (sh (set_cons s1 (cns s)) F T) t = PLink e p).
  { intros t e p H. apply seen_link in H as (H & N). apply seen_link. split; [exact H|]. intros E. apply N. apply in_or_app. right. exact E. }
  assert (SP : forall t e, pre (prd (sh (set_cons s1 (cns s)) F T) t) e -> pre (prd (sh s1 (B ++ F) w1) t) e).
  { intros t e H. apply seen_pre in H. apply seen_pre. exact H. }
  assert (SO : forall t c, (forall e p, c <> PLink e p) -> c <> PIdle -> prd (sh (set_cons s1 (cns s)) F T) t = c -> prd (sh s1 (B ++ F) w1) t = c).
  { intros t c N1 N2 H. apply (proj1 (seen_other _ _ _ t c N1 N2)) in H. apply (proj2 (seen_other _ _ _ t c N1 N2)). exact H. }
  assert (VQ : forall t e p, prd (sh s1 (B ++ F) w1) t = PLink e p -> In e Q1).
  { intros t e p H. destruct (Z.eq_dec p 0) as [->|Np].
    - destruct (i_pl0 _ _ _ I1 t e H) as (_ & (l & ->) & _). left. reflexivity.
    - destruct (i_plp _ _ _ I1 t e p H Np) as (_ & [E|E]); [exfalso; exact (adj_nil _ _ E)|exact (proj2 (adj_in _ _ _ E))]. }
  assert (VB : forall t e p, In p B -> prd s1 t = PLink e p -> In e B) by (intros t e p Hp H; exact (proj2 (adj_in _ _ _ (proj2 (HB3 t e p H Hp))))).
  constructor.
  - exists T. destruct I1. constructor; intros.
    + exact (tr_of_log s1 (B ++ Q1)).
    + apply nd_join; [exact (nodup_app_l _ _ ND1)|exact i_nd|]. intros x Hx. exact (proj2 (proj2 (AB x Hx))).
    + intros E. apply in_app_or in E as [E|E]; [apply NZ1; apply in_or_app; left; exact E|exact (i_nz E)].
    + apply in_app_or in H as [H|H]; [exact (proj1 (AB e H))|exact (i_busy e H)].
    + exact i_tl.
    + destruct H as [H|H].
      * destruct (HB1 x y H) as [E|(E & t & P)]; [left; exact E|right; split; [exact E|]]. exists t. apply seen_link. split; [exact P|].
        apply BF. exact (proj1 (adj_in _ _ _ H)).
      * destruct (i_link x y (or_intror H)) as [E|(E & t & P)]; [left; exact E|right; split; [exact E|]]. exists t. exact (SB t y x P).
    + destruct H as [H|H]; [exact (HB2 l x H)|exact (i_end l x (or_intror H))].
    + exact (i_empty H).
    + destruct (i_head q l H) as [E|(E & [(t & P)|E1])]; [left; exact E|right; split; [exact E|left; exists t; exact (SB t q 0 P)]|cbn in E1; congruence].
    + apply SL in H as [(H & _)|H]; [exfalso; apply NZ1; apply in_or_app; left; exact H|].
      destruct (i_pl0 t e H) as (E1 & E2 & _). split; [exact E1|]. split; [exact E2|exact NS].
    + apply SL in H as [(Hp & H)|H]; [destruct (HB3 t e p H Hp) as (E1 & E2); split; [exact E1|left; exact E2]|].
      destruct (i_plp t e p H H0) as (E1 & [E2|E2]); [exfalso; exact (adj_nil _ _ E2)|split; [exact E1|right; exact E2]].
    + apply SL in H. apply SL in H0. destruct H as [(Hp & H)|H], H0 as [(Hp' & H0)|H0].
      * apply (PU1 t u e p p' H H0); apply in_or_app; left; assumption.
      * exfalso. exact (proj2 (proj2 (AB e (VB t e p Hp H))) (VQ u e p' H0)).
      * exfalso. exact (proj2 (proj2 (AB e (VB u e p' Hp' H0))) (VQ t e p H)).
      * exact (i_plu t u e p p' H H0).
    + pose proof (SP t e H) as H'. destruct (i_pre t e H') as (E1 & E2 & E3). split; [exact E1|]. split; [exact E2|].
      intros E4. apply in_app_or in E4 as [E4|E4]; [|exact (E3 E4)]. apply seen_pre in H. exact (proj1 (proj2 (AB e E4)) t H).
    + exact (i_preu t u e (SP t e H) (SP u e H0)).
    + apply (i_pay t e v). destruct H as [H|[H|H]]; [left|right; left|right; right]; (apply SO; [discriminate|discriminate|exact H]).
    + apply (i_next t e v). apply SO; [discriminate|discriminate|exact H].
    + intros H. apply (i_bad t). apply SO; [discriminate|discriminate|exact H].
    + exact CI.
  - intros x Hx. destruct (A1 x (in_or_app _ _ _ (or_intror Hx))) as (B1 & B2 & B3). split; [exact B1|]. split; [exact B2|].
    intros E. apply in_app_or in E as [E|E]; [exact (BF x E Hx)|exact (B3 E)].
  - exact NZ.
  - exact ND.
  - intros D HD. exact (HL1 D (or_intror HD)).
  - intros t u e p p' P1 P2 H1 H2. apply (PU1 t u e p p' P1 P2); apply in_or_app; right; assumption.
  - cbn. rewrite L1. apply Permutation_app_head. unfold logged. cbn. apply Permutation_map. rewrite !app_assoc. apply Permutation_app_tail. apply Permutation_app_comm.
Qed.

(** ** Executions with handlers *)
(** The head is cleared and the tail not swapped: the handlers find nothing. *)
Lemma f_nothing : forall s0 s1, hexec s0 s1 -> forall s h Fs B Q, FInv s Fs B Q -> cns s = CSwap h -> s0 = set_cons s CIdle ->
  cns s1 = CIdle /\ exists B1 Q1, FInv (set_cons s1 (CSwap h)) Fs B1 Q1 /\ kept s s1 (concat Fs).
Proof.
  induction 1 as [s0|s0 a s1 s2 H X IH|s0 s1 s2 M X1 IH1 C1 X2 IH2]; intros s h Fs B Q I C ->.
  - split; [reflexivity|]. exists B, Q. rewrite set_twice, <- C, set_same. split; [exact I|exact (kept_refl s (concat Fs))].
  - assert (D : a = Cons \/ a <> Cons) by (destruct a; (left; reflexivity) || (right; discriminate)). destruct D as [->|N].
    + assert (Hh : qhd s = 0).
      { destruct (f_inv _ _ _ _ I) as (w & J). pose proof (i_cons _ _ _ J) as IC. unfold cinv in IC. cbn in IC. rewrite C in IC. exact (proj1 (proj2 IC)). }
      cbn [step] in H. unfold consume in H. cbn in H. rewrite Hh in H. cbn in H. injection H as <-.
      apply (IH s h Fs B Q I C). reflexivity.
    + destruct (step_blind s CIdle a s1 N H) as (H1 & Cc). destruct (f_step s Fs B Q a _ I H1) as (B1 & Q1 & I1 & K1).
      destruct (IH (set_cons s1 (cns s)) h Fs B1 Q1 I1 C) as (E & B2 & Q2 & I2 & K2); [rewrite set_twice, <- Cc, set_same; reflexivity|].
      split; [exact E|]. exists B2, Q2. split; [exact I2|]. exact (kept_trans _ _ _ _ K1 K2).
  - destruct (IH1 s h Fs B Q I C eq_refl) as (E & B1 & Q1 & I1 & K1).
    destruct (IH2 (set_cons s1 (CSwap h)) h Fs B1 Q1 I1 eq_refl eq_refl) as (E2 & B2 & Q2 & I2 & K2).
    split; [exact E2|]. exists B2, Q2. split; [exact I2|]. exact (kept_trans _ _ _ _ K1 K2).
Qed.
Lemma f_idle : forall s Fs B Q c, FInv s Fs B Q -> B = [] -> (forall h, cns s <> CSwap h) -> c = CIdle \/ c = CLoad -> FInv (set_cons s c) Fs [] Q.
Proof.
  intros s Fs B Q c [(w & I) A NZ ND HL PU L] -> N Hc. constructor; [|exact A|exact NZ|exact ND|exact HL|exact PU|exact L]. exists w.
  exact (idle_inv (sh s (concat Fs) w) [] Q I eq_refl N c Hc).
Qed.
Lemma f_exec : forall s s', hexec s s' -> forall Fs B Q, FInv s Fs B Q -> exists B' Q', FInv s' Fs B' Q' /\ kept s s' (concat Fs).
Proof.
  induction 1 as [s|s a s1 s2 H X IH|s s1 s2 M X1 IH1 C1 X2 IH2]; intros Fs B Q I.
  - exists B, Q. split; [exact I|apply kept_refl].
  - destruct (f_step s Fs B Q a s1 I H) as (B1 & Q1 & I1 & K1). destruct (IH Fs B1 Q1 I1) as (B2 & Q2 & I2 & K2).
    exists B2, Q2. split; [exact I2|exact (kept_trans _ _ _ _ K1 K2)].
  - assert (R : exists B1 Q1, FInv (set_cons s1 (cns s)) Fs B1 Q1 /\ kept s s1 (concat Fs)).
    { assert (EI : forall Fs B1 Q1, FInv s1 Fs B1 Q1 -> B1 = []).
      { intros F1 B1 Q1 J. destruct (f_inv _ _ _ _ J) as (w1 & I1). pose proof (i_cons _ _ _ I1) as IC1. unfold cinv in IC1. cbn in IC1. rewrite C1 in IC1. exact IC1. }
      assert (IC : exists w, cinv (sh s (concat Fs) w) B Q) by (destruct (f_inv _ _ _ _ I) as (w & J); exists w; exact (i_cons _ _ _ J)).
      destruct IC as (w & IC). unfold cinv in IC. cbn in IC.
      assert (HAND : in_hand (cns s) -> exists B1 Q1, FInv (set_cons s1 (cns s)) Fs B1 Q1 /\ kept s s1 (concat Fs)).
      { intros C. destruct (IH1 (B :: Fs) [] Q (put_aside s Fs B Q I (hand_swap _ C))) as (B1 & Q1 & I1 & K1). pose proof (EI _ _ _ I1) as E. subst B1.
        exists B, Q1. split; [exact (take_back s Fs B Q s1 Q1 I C I1 C1 K1)|]. intros x Hx. apply K1. cbn. apply in_or_app. right. exact Hx. }
      assert (IDLE : B = [] -> cns s = CIdle \/ cns s = CLoad -> exists B1 Q1, FInv (set_cons s1 (cns s)) Fs B1 Q1 /\ kept s s1 (concat Fs)).
      { intros E C. destruct (IH1 Fs [] Q) as (B1 & Q1 & I1 & K1); [apply (f_idle s Fs B Q _ I E); [destruct C as [C|C]; rewrite C; discriminate|left; reflexivity]|].
        exists [], Q1. split; [|exact K1]. apply (f_idle s1 Fs B1 Q1 _ I1 (EI _ _ _ I1)); [rewrite C1; discriminate|exact C]. }
      destruct (cns s) as [| |hh|hh|hh tt c|hh tt c|e|e m|] eqn:C.
      - apply IDLE; [exact IC|left; reflexivity].
      - apply IDLE; [exact IC|right; reflexivity].
      - exfalso. exact (M hh eq_refl).
      - destruct (f_nothing _ _ X1 s hh Fs B Q I C eq_refl) as (_ & B1 & Q1 & I1 & K1). exists B1, Q1. split; [exact I1|exact K1].
      - apply HAND. left. exists hh, tt, c. reflexivity.
      - apply HAND. right. left. exists hh, tt, c. reflexivity.
      - apply HAND. right. right. left. exists e. reflexivity.
      - apply HAND. right. right. right. exists e, m. reflexivity.
      - destruct IC. }
    destruct R as (B1 & Q1 & I1 & K1). destruct (IH2 Fs B1 Q1 I1) as (B2 & Q2 & I2 & K2). exists B2, Q2.
    split; [exact I2|exact (kept_trans _ _ _ _ K1 K2)].
Qed.
Lemma f_0 n p : FInv (q0 n p) [] [] [].
Proof.
  constructor; cbn [concat]; [exists []; exact (inv0 n p)|intros x []|intros []|constructor|intros A []|intros t u e x x' H; discriminate H|apply Permutation_refl].
Qed.
Lemma batch_safe : forall n p s, hexec (q0 n p) s ->
  cns s <> CBad /\ (forall t, prd s t <> PBad) /\ exists rest, Permutation (pubs (tr s)) (dels (tr s) ++ rest) /\ NoDup (map fst rest) /\
  forall x, In x (map fst rest) -> busy s x = true.
Proof.
  intros n p s X. destruct (f_exec _ _ X [] [] [] (f_0 n p)) as (B & Q & [(w & I) A _ _ _ _ L] & _).
  split; [|split].
  - intros C. pose proof (i_cons _ _ _ I) as IC. unfold cinv in IC. cbn in IC. rewrite C in IC. exact IC.
  - intros t E. apply (i_bad _ _ _ I t). apply seen_other; [discriminate|discriminate|exact E].
  - exists (logged s (B ++ Q)). split; [exact L|]. rewrite logged_fst. split; [exact (i_nd _ _ _ I)|exact (i_busy _ _ _ I)].
Qed.
Lemma batch_all : forall n p s, hexec (q0 n p) s -> (forall t, ~ in_flight s t) -> cns s = CIdle -> qhd s = 0 -> Permutation (pubs (tr s)) (dels (tr s)).
Proof.
  intros n p s X NF C H. destruct (f_exec _ _ X [] [] [] (f_0 n p)) as (B & Q & [(w & I) A _ _ _ _ L] & _).
  pose proof (i_cons _ _ _ I) as IC. unfold cinv in IC. cbn in IC. rewrite C in IC. subst B.
  assert (E : Q = []).
  { destruct Q as [|q Q]; [reflexivity|exfalso]. destruct (i_head _ _ _ I q Q eq_refl) as [E|(_ & [(t & E)|E])].
    - cbn in E. apply (i_nz _ _ _ I). left. congruence.
    - apply seen_link in E as (E & _). apply (NF t). exists q, 0. exact E.
    - cbn in E. congruence. }
  subst Q. cbn in L. rewrite app_nil_r in L. exact L.
Qed.
Lemma hexec_trans : forall s s1 s2, hexec s s1 -> hexec s1 s2 -> hexec s s2.
Proof.
  intros s s1 s2 H. induction H as [s|s a s1 s3 H X IH|s s1 s3 M X1 IH1 C1 X2 IH2]; intros Y.
  - exact Y.
  - exact (hx_step s a s1 s2 H (IH Y)).
  - exact (hx_purge s s1 s2 M X1 C1 (IH2 Y)).
Qed.
Lemma exec_hexec : forall s l s', exec s l s' -> hexec s s'.
Proof. induction 1 as [s|s a s1 l s2 H X IH]; [apply hx_nil|exact (hx_step s a s1 s2 H IH)]. Qed.

(** An execution whose deliveries are not in the order of the publications: the batch of block 64 is in hand when a handler delivers block 128. *)
Definition i0 : qst := q0 (fun _ => 0) (fun _ => 0).
(** Proof device (no code of its own in /repo). *)
Definition after_l (s : qst) (l : list act) : qst := match go_on s l with Some s' => s' | None => s end.
Lemma after_hexec s l : match go_on s l with Some _ => true | None => false end = true -> hexec s (after_l s l).
Proof. unfold after_l. destruct (go_on s l) as [s'|] eqn:E; [|discriminate]. intros _. exact (exec_hexec s l s' (go_exec l s s' E)). Qed.
(** Proof device (no code of its own in /repo). *)
Definition e1 : qst := after_l i0 (Start 7 64 5 :: repeat (Go 7) 5 ++ repeat Cons 5 ++ Start 7 128 6 :: repeat (Go 7) 5).
(** Proof device (no code of its own in /repo). *)
Definition e2 : qst := after_l (set_cons e1 CIdle) (repeat Cons 8).
(** Proof device (no code of its own in /repo). *)
Definition e3 : qst := after_l (set_cons e2 (cns e1)) (repeat Cons 3).
Lemma e_run : hexec i0 e3 /\ cns e1 = CWalk 64 /\ cns e3 = CIdle /\ qhd e3 = 0 /\ pubs (tr e3) = [(64, 5); (128, 6)] /\ dels (tr e3) = [(128, 6); (64, 5)].
Proof.
  assert (C1 : cns e1 = CWalk 64) by (vm_compute; reflexivity). split; [|repeat split; vm_compute; reflexivity].
  apply (hexec_trans i0 e1); [apply after_hexec; vm_compute; reflexivity|].
  apply (hx_purge e1 e2); [intros h; rewrite C1; discriminate|apply after_hexec; vm_compute; reflexivity|vm_compute; reflexivity|].
  apply after_hexec; vm_compute; reflexivity.
Qed.
Lemma order_lost : ~ forall n p s, hexec (q0 n p) s -> prefix (dels (tr s)) (pubs (tr s)).
Proof.
  intros H. destruct e_run as (X & _ & _ & _ & P & D). destruct (H _ _ _ X) as (c & E). rewrite P, D in E. discriminate E.
Qed.

(** Another one: a handler while the owner waits for thread 8 to link block 128 to block 64, both in its batch. *)
Definition d1 : qst := after_l i0 (Start 7 64 5 :: repeat (Go 7) 5 ++ Start 8 128 6 :: repeat (Go 8) 4 ++ repeat Cons 4 ++ Start 9 192 7 :: repeat (Go 9) 5).
(** (the same) *)
Definition d2 : qst := after_l (set_cons d1 CIdle) (repeat Cons 8).
(** (the same) *)
Definition d3 : qst := after_l (set_cons d2 (cns d1)) (Go 8 :: repeat Cons 8).
Lemma d_run : hexec i0 d3 /\ cns d1 = CWait 64 128 64 /\ prd d1 8%nat = PLink 128 64 /\ dels (tr d2) = [(192, 7)] /\
  cns d3 = CIdle /\ pubs (tr d3) = [(64, 5); (128, 6); (192, 7)] /\ dels (tr d3) = [(192, 7); (64, 5); (128, 6)].
Proof.
  assert (C1 : cns d1 = CWait 64 128 64) by (vm_compute; reflexivity). split; [|repeat split; vm_compute; reflexivity].
  apply (hexec_trans i0 d1); [apply after_hexec; vm_compute; reflexivity|].
  apply (hx_purge d1 d2); [intros h; rewrite C1; discriminate|apply after_hexec; vm_compute; reflexivity|vm_compute; reflexivity|].
  apply after_hexec; vm_compute; reflexivity.
Qed.
