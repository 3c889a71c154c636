(** From when to when a block is with the queue. *)
From Verif Require Import MpscfModel MpscfSpec.
From Coq Require Import ZArith List Bool Lia.
Import ListNotations.
Open Scope Z_scope.

(** How often block [e] was given to the queue, and how often it was delivered (specification; events of MpscfModel.v: sctk_allocator.c 2537, 1820). *)
Fixpoint given (e : Z) (l : list event) : nat :=
  match l with [] => O | EStart _ x _ :: r => if x =? e then S (given e r) else given e r | _ :: r => given e r end.
(** (the same; sctk_allocator.c 1820) *)
Fixpoint back (e : Z) (l : list event) : nat :=
  match l with [] => O | EDel x _ :: r => if x =? e then S (back e r) else back e r | _ :: r => back e r end.
(** (no code of its own in /repo) *)
Definition balanced (s : qst) : Prop := forall e, given e (tr s) = (back e (tr s) + if busy s e then 1 else 0)%nat.

Lemma given_app e a b : given e (a ++ b) = (given e a + given e b)%nat.
Proof. induction a as [|[t x v|t x v|t|x v] a IH]; cbn [app given]; [reflexivity| |exact IH..]. destruct (x =? e); rewrite IH; lia. Qed.
Lemma back_app e a b : back e (a ++ b) = (back e a + back e b)%nat.
Proof. induction a as [|[t x v|t x v|t|x v] a IH]; cbn [app back]; [reflexivity|exact IH..|]. destruct (x =? e); rewrite IH; lia. Qed.
Lemma back_dels e l : back e l = length (filter (fun p => fst p =? e) (dels l)).
Proof. induction l as [|[t x v|t x v|t|x v] l IH]; cbn [back dels filter fst]; [reflexivity|exact IH..|]. destruct (x =? e); cbn [length]; rewrite IH; reflexivity. Qed.

Lemma bal_same s s' : busy s' = busy s -> tr s' = tr s -> balanced s -> balanced s'.
Proof. intros E1 E2 B e. rewrite E1, E2. apply B. Qed.
Lemma bal_start s t e v s' : start s t e v = Some s' -> balanced s -> balanced s'.
Proof.
  unfold start. destruct (prd s t); try discriminate. destruct (e =? 0); [discriminate|]. cbn [orb]. destruct (busy s e) eqn:E; [discriminate|].
  intros H B x. injection H as <-. cbn. rewrite given_app, back_app, (B x). cbn. unfold updb. rewrite (Z.eqb_sym x e).
  destruct (Z.eqb_spec e x) as [->|N]; [rewrite E|]; lia.
Qed.
Lemma bal_log s c : (forall e, given e [c] = O) -> (forall e, back e [c] = O) -> balanced s -> balanced (log s c).
Proof. intros G D B e. cbn. rewrite given_app, back_app, G, D, (B e). lia. Qed.
Lemma bal_go s t s' : go s t = Some s' -> balanced s -> balanced s'.
Proof.
  unfold go. intros H B.
  destruct (prd s t) as [|e v|e v|e v|e v|e q|]; try discriminate H;
    try (injection H as <-; first [apply bal_log; [reflexivity|reflexivity|]|idtac]; apply (bal_same s); [reflexivity|reflexivity|exact B]).
  destruct (q =? 0); [injection H as <-; apply bal_log; [reflexivity|reflexivity|]; apply (bal_same s); [reflexivity|reflexivity|exact B]|].
  destruct (busy s q); injection H as <-.
  - apply bal_log; [reflexivity|reflexivity|]. apply (bal_same s); [reflexivity|reflexivity|exact B].
  - apply (bal_same s); [reflexivity|reflexivity|exact B].
Qed.
Lemma bal_consume s s' : consume s = Some s' -> balanced s -> balanced s' /\ forall e, given e (tr s') = given e (tr s).
Proof.
  unfold consume. intros H B.
  assert (K : forall x, busy x = busy s -> tr x = tr s -> Some x = Some s' -> balanced s' /\ forall e, given e (tr s') = given e (tr s)).
  { intros x E1 E2 E. injection E as <-. split; [exact (bal_same s x E1 E2 B)|]. intros e. rewrite E2. reflexivity. }
  destruct (cns s) as [| |h|h|h t c|h t c|e|e n|]; try discriminate H; try (revert H; apply K; reflexivity).
  - destruct (negb (busy s c)); [revert H; apply K; reflexivity|]. destruct (c =? t); revert H; apply K; reflexivity.
  - destruct (negb (busy s c)); revert H; apply K; reflexivity.
  - destruct (e =? 0); [revert H; apply K; reflexivity|]. destruct (negb (busy s e)); revert H; apply K; reflexivity.
  - destruct (busy s e) eqn:E; cbn [negb] in H; [|revert H; apply K; reflexivity]. injection H as <-. split.
    + intros x. cbn. rewrite given_app, back_app, (B x). cbn. unfold updb. rewrite (Z.eqb_sym x e).
      destruct (Z.eqb_spec e x) as [->|N]; [rewrite E|]; lia.
    + intros x. cbn. rewrite given_app. cbn. lia.
Qed.
Lemma bal_step s a s' : step s a = Some s' -> balanced s -> balanced s'.
Proof.
  destruct a as [t e v|t| |a n v]; cbn [step]; intros H B.
  - exact (bal_start s t e v s' H B).
  - exact (bal_go s t s' H B).
  - exact (proj1 (bal_consume s s' H B)).
  - destruct (busy s a); [discriminate|]. injection H as <-. apply (bal_same s); [reflexivity|reflexivity|exact B].
Qed.
Lemma bal_exec s l s' : exec s l s' -> balanced s -> balanced s'.
Proof. induction 1 as [s|s a s1 l s2 H X IH]; intros B; [exact B|]. exact (IH (bal_step s a s1 H B)). Qed.
Lemma bal_alone n : forall s s', exec s (repeat Cons n) s' -> balanced s -> forall e, given e (tr s') = given e (tr s).
Proof.
  induction n as [|n IH]; intros s s' X B e; cbn [repeat] in X; inversion X as [|? ? s1 ? ? H X1]; subst; [reflexivity|].
  cbn [step] in H. destruct (bal_consume s s1 H B) as (B1 & G). rewrite (IH s1 s' X1 B1 e). apply G.
Qed.
Lemma bal_reach s : reach s -> balanced s.
Proof. intros (n & p & l & X). apply (bal_exec _ _ _ X). intros e. reflexivity. Qed.

Lemma give_again : forall s t e v, reach s -> prd s t = PIdle -> e <> 0 ->
  ((exists s', step s (Start t e v) = Some s') <-> given e (tr s) = back e (tr s)) /\
  (given e (tr s) = back e (tr s) \/ given e (tr s) = S (back e (tr s))).
Proof.
  intros s t e v R P N. pose proof (bal_reach s R e) as B. cbn [step]. unfold start. rewrite P. apply Z.eqb_neq in N. rewrite N. cbn [orb].
  destruct (busy s e).
  - split; [split; [intros (s' & H); discriminate H|lia]|lia].
  - split; [split; [lia|intros _; eexists; reflexivity]|lia].
Qed.
