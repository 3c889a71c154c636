(** Invariant of the spinlock. *)
From Verif Require Import LockModel LockSpec.
From Coq Require Import ZArith List Bool Lia.
Import ListNotations.
Open Scope Z_scope.

Lemma fupd_same : forall A (f : nat -> A) t v, fupd f t v t = v.
Proof. intros. unfold fupd. rewrite Nat.eqb_refl. reflexivity. Qed.
Lemma fupd_other : forall A (f : nat -> A) t u v, u <> t -> fupd f t v u = f u.
Proof. intros A f t u v H. unfold fupd. destruct (Nat.eqb_spec u t); [contradiction|reflexivity]. Qed.

Lemma owner_app : forall a b o, owner o (a ++ b) = match owner o a with Some o' => owner o' b | None => None end.
Proof.
  induction a as [|[t|t|t] a IH]; intros b o; cbn; [reflexivity| | |].
  - destruct o; [reflexivity|apply IH].
  - destruct o; [apply IH|reflexivity].
  - destruct o as [u|]; [destruct (Nat.eqb u t); [apply IH|reflexivity]|reflexivity].
Qed.

Record LInv (s : lst) (o : option nat) : Prop := {
  li_tr : owner None (ltr s) = Some o;
  li_held : forall t, held s t = true <-> o = Some t;
  li_word : word s = match o with None => 0 | Some _ => 1 end;
  li_unl : forall t, lp s t = LUnl -> o = Some t }.

Lemma linv0 : LInv l0 None.
Proof. constructor; cbn; try reflexivity; intros t; [split; discriminate|discriminate]. Qed.

Lemma linv_pc : forall s o t p, LInv s o -> (p = LUnl -> o = Some t) -> LInv (set_lp s t p) o.
Proof.
  intros s o t p I H. destruct I. constructor; cbn; try assumption. intros u. destruct (Nat.eq_dec u t) as [->|N].
  - rewrite fupd_same. exact H.
  - rewrite fupd_other by exact N. apply li_unl0.
Qed.

Lemma linv_acq : forall s t, LInv s None -> LInv (llog (set_held (set_lp (set_word s 1) t LOut) t true) (EAcq t)) (Some t).
Proof.
  intros s t I. destruct I. constructor; cbn.
  - rewrite owner_app, li_tr0. reflexivity.
  - intros u. destruct (Nat.eq_dec u t) as [->|N]; [rewrite fupd_same; tauto|]. rewrite fupd_other by exact N. rewrite li_held0.
    split; [discriminate|congruence].
  - reflexivity.
  - intros u. destruct (Nat.eq_dec u t) as [->|N]; [rewrite fupd_same; discriminate|]. rewrite fupd_other by exact N. intros H.
    apply li_unl0 in H. discriminate.
Qed.

Lemma linv_step : forall s o a s', LInv s o -> lstep s a = Some s' -> exists o', LInv s' o'.
Proof.
  intros s o [t|t|t|t] s' I H; cbn in H.
  - destruct (lp s t); try discriminate. injection H as <-. exists o. apply linv_pc; [exact I|discriminate].
  - destruct (lp s t); try discriminate. injection H as <-. exists o. apply linv_pc; [exact I|discriminate].
  - destruct (lp s t); try discriminate. destruct (held s t) eqn:E; [|discriminate]. injection H as <-. exists o. apply linv_pc; [exact I|].
    intros _. apply (li_held _ _ I). exact E.
  - destruct (lp s t) eqn:Et; try discriminate.
    + destruct o as [u|]; pose proof (li_word _ _ I) as W; rewrite W in H; cbn in H; injection H as <-.
      * exists (Some u). apply linv_pc; [|discriminate]. destruct I. constructor; cbn; try assumption; reflexivity.
      * exists (Some t). apply linv_acq. exact I.
    + injection H as <-. exists o. apply linv_pc; [exact I|]. destruct (word s =? 0); discriminate.
    + destruct o as [u|]; pose proof (li_word _ _ I) as W; rewrite W in H; cbn in H; injection H as <-.
      * exists (Some u). assert (I' : LInv (set_word s 1) (Some u)) by (destruct I; constructor; cbn; try assumption; reflexivity).
        apply (linv_pc _ _ t LOut) in I'; [|discriminate]. destruct I'. constructor; cbn in *; try assumption.
        rewrite owner_app, li_tr0. reflexivity.
      * exists (Some t). apply linv_acq. exact I.
    + injection H as <-. pose proof (li_unl _ _ I t Et) as Eo. subst o. exists None. destruct I. constructor; cbn.
      * rewrite owner_app, li_tr0. cbn. rewrite Nat.eqb_refl. reflexivity.
      * intros u. destruct (Nat.eq_dec u t) as [->|N]; [rewrite fupd_same; split; discriminate|]. rewrite fupd_other by exact N. rewrite li_held0.
        split; [congruence|discriminate].
      * reflexivity.
      * intros u. destruct (Nat.eq_dec u t) as [->|N]; [rewrite fupd_same; discriminate|]. rewrite fupd_other by exact N. intros X.
        apply li_unl0 in X. congruence.
Qed.

Lemma lexec_inv : forall s l s', lexec s l s' -> forall o, LInv s o -> exists o', LInv s' o'.
Proof.
  induction 1 as [|s a s1 l s2 E X IH]; intros o I; [exists o; exact I|].
  destruct (linv_step s o a s1 I E) as (o' & I'). exact (IH o' I').
Qed.
Lemma lreach_inv : forall s, lreach s -> exists o, LInv s o.
Proof. intros s (l & X). exact (lexec_inv _ _ _ X None linv0). Qed.

Lemma mutex : forall s t u, lreach s -> held s t = true -> held s u = true -> t = u.
Proof.
  intros s t u R Ht Hu. destruct (lreach_inv s R) as (o & I). apply (li_held _ _ I) in Ht. apply (li_held _ _ I) in Hu. congruence.
Qed.

Lemma trace_ok : forall s, lreach s -> exists o, owner None (ltr s) = Some o /\ forall t, held s t = true <-> o = Some t.
Proof. intros s R. destruct (lreach_inv s R) as (o & I). exists o. split; [exact (li_tr _ _ I)|exact (li_held _ _ I)]. Qed.

Lemma free_taken : forall s t, lreach s -> (forall u, held s u = false) -> waiting s t ->
  exists n s', (n <= 2)%nat /\ lexec s (repeat (LGo t) n) s' /\ held s' t = true /\ lp s' t = LOut.
Proof.
  intros s t R F W. destruct (lreach_inv s R) as (o & I).
  assert (E0 : word s = 0).
  { destruct o as [u|]; [|exact (li_word _ _ I)]. specialize (F u). assert (held s u = true) by (apply (li_held _ _ I); reflexivity). congruence. }
  assert (G : forall s, word s = 0 -> lp s t = LSwap -> exists s', lstep s (LGo t) = Some s' /\ held s' t = true /\ lp s' t = LOut).
  { intros z Z P. cbn. rewrite P, Z. cbn. eexists. split; [reflexivity|]. cbn. rewrite !fupd_same. split; reflexivity. }
  destruct W as [W|W].
  - destruct (G s E0 W) as (s1 & H1 & H2 & H3). exists 1%nat, s1. split; [lia|]. split; [|tauto]. econstructor; [exact H1|constructor].
  - assert (S1 : lstep s (LGo t) = Some (set_lp s t LSwap)) by (cbn; rewrite W, E0; reflexivity).
    destruct (G (set_lp s t LSwap)) as (s1 & H1 & H2 & H3); [exact E0|cbn; apply fupd_same|].
    exists 2%nat, s1. split; [lia|]. split; [|tauto]. econstructor; [exact S1|]. econstructor; [exact H1|constructor].
Qed.

(** The swap can only fail because somebody holds the lock. *)
Lemma refused_held : forall s t s', lreach s -> lp s t = LTry -> lstep s (LGo t) = Some s' ->
  (held s' t = true /\ ltr s' = ltr s ++ [EAcq t]) \/ (exists u, held s u = true /\ ltr s' = ltr s ++ [ERefused t]).
Proof.
  intros s t s' R P H. destruct (lreach_inv s R) as (o & I). cbn in H. rewrite P, (li_word _ _ I) in H.
  destruct o as [u|]; cbn in H; injection H as <-; cbn.
  - right. exists u. split; [apply (li_held _ _ I); reflexivity|reflexivity].
  - left. rewrite fupd_same. split; reflexivity.
Qed.

(** Locking twice: the thread that holds the lock and waits for it never gets out, and nobody gets the lock. *)
Lemma self_deadlock_step : forall s a s' t o, LInv s o -> o = Some t -> waiting s t -> lstep s a = Some s' ->
  LInv s' o /\ waiting s' t.
Proof.
  intros s a s' t o I -> W H. assert (WD := li_word _ _ I). cbn in WD.
  assert (Q : waiting s' t /\ (forall u, held s' u = held s u) /\ word s' = 1).
  { unfold waiting in *. destruct a as [u|u|u|u]; cbn in H.
    1-2: destruct (lp s u) eqn:E; try discriminate; injection H as <-; cbn; (destruct (Nat.eq_dec t u) as [<-|N];
      [exfalso; destruct W; congruence|rewrite fupd_other by exact N; tauto]).
    - destruct (lp s u) eqn:E; try discriminate. destruct (held s u); [|discriminate]. injection H as <-. cbn.
      destruct (Nat.eq_dec t u) as [<-|N]; [exfalso; destruct W; congruence|rewrite fupd_other by exact N; tauto].
    - rewrite WD in H. cbn in H. destruct (lp s u) eqn:E; try discriminate; injection H as <-; cbn.
      + split; [destruct (Nat.eq_dec t u) as [<-|N]; [rewrite fupd_same; tauto|rewrite fupd_other by exact N; exact W]|split; reflexivity].
      + split; [destruct (Nat.eq_dec t u) as [<-|N]; [rewrite fupd_same; tauto|rewrite fupd_other by exact N; exact W]|split; [reflexivity|exact WD]].
      + destruct (Nat.eq_dec t u) as [<-|N]; [exfalso; destruct W; congruence|]. rewrite fupd_other by exact N. tauto.
      + exfalso. pose proof (li_unl _ _ I u E) as X. injection X as <-. destruct W; congruence. }
  destruct Q as (Q1 & Q2 & Q3). split; [|exact Q1]. destruct (linv_step s (Some t) a s' I H) as (o' & I').
  assert (o' = Some t).
  { apply (li_held _ _ I'). rewrite Q2. apply (li_held _ _ I). reflexivity. }
  subst o'. exact I'.
Qed.

Lemma self_deadlock : forall s l s' t, lreach s -> held s t = true -> waiting s t -> lexec s l s' ->
  waiting s' t /\ forall u, held s' u = true <-> u = t.
Proof.
  intros s l s' t R Ht W X. destruct (lreach_inv s R) as (o & I). assert (o = Some t) by (apply (li_held _ _ I); exact Ht). subst o. clear R Ht.
  assert (G : LInv s' (Some t) /\ waiting s' t).
  { induction X as [|s a s1 l s2 E X IH]; [split; assumption|].
    destruct (self_deadlock_step s a s1 t _ I eq_refl W E) as [I1 W1]. exact (IH W1 I1). }
  destruct G as [I' W']. split; [exact W'|]. intros u. rewrite (li_held _ _ I'). split; congruence.
Qed.
