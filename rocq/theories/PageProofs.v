(** The page map: invariants and lemmas behind C79. *)
From Verif Require Import Res PageModel PageSpec.
From Coq Require Import List Bool Arith Lia.
Import ListNotations.

Definition pending (p : place) : Prop := match p with XLock | XTest => True | _ => False end.
Definition table_ok (pm : nat -> nat) (p : place) : Prop :=
  match p with
  | RUnlock _ a n l => l = entries pm a n
  | Use _ a n (Some l) => l = entries pm a n
  | Free (Some (a, n, l)) => l = entries pm a n
  | _ => True
  end.
Record V (pm : nat -> nat) (s : pst) : Prop := {
  v_lock : forall t, p_lock s = Some t <-> holding (p_at s t);
  v_live : forall f, p_live s f = true -> p_fp s = FOpen f;
  v_fp : forall f, p_fp s = FOpen f -> p_live s f = true;
  v_regs : p_regs s <= 1;
  v_reg1 : p_regs s = 1 -> (exists f, p_fp s = FOpen f) /\ forall t, ~ pending (p_at s t);
  v_pend : forall t, pending (p_at s t) -> p_regs s = 0 /\ exists f, p_fp s = FOpen f;
  v_one : forall t u, pending (p_at s t) -> pending (p_at s u) -> t = u;
  v_open : forall f, p_fp s = FOpen f -> p_regs s = 1 \/ exists t, pending (p_at s t);
  v_seek : forall t u a n, p_at s t = RRead u a n -> exists f, p_fp s = FOpen f /\ p_pos s f = a;
  v_tab : forall t, table_ok pm (p_at s t) }.
Lemma set_same {A} (f : nat -> A) k v : set f k v k = v.
Proof. unfold set. rewrite Nat.eqb_refl. reflexivity. Qed.
Lemma set_other {A} (f : nat -> A) k v x : x <> k -> set f k v x = f x.
Proof. intros N. unfold set. apply Nat.eqb_neq in N. rewrite N. reflexivity. Qed.
Lemma V_0 pm : V pm p0.
Proof.
  constructor; cbn [p0 p_lock p_live p_fp p_regs p_at p_pos].
  - intros t. split; [discriminate|intros H; destruct H].
  - discriminate.
  - discriminate.
  - lia.
  - discriminate.
  - intros t H. destruct H.
  - intros t u H. destruct H.
  - discriminate.
  - discriminate.
  - intros t. exact Logic.I.
Qed.
(** A thread moves and nothing else changes. *)
Lemma V_go pm s t p : V pm s -> (holding p <-> holding (p_at s t)) -> (pending p <-> pending (p_at s t)) -> (forall u a n, p <> RRead u a n) -> table_ok pm p -> V pm (pgo s t p).
Proof.
  intros [A B C D E F G H K L] HH HP NR TB. constructor; cbn [pgo p_lock p_live p_fp p_regs p_at p_pos]; try assumption.
  - intros x. destruct (Nat.eq_dec x t) as [->|N]; [rewrite set_same, HH; apply A|rewrite set_other by exact N; apply A].
  - intros R. destruct (E R) as (E1 & E2). split; [exact E1|]. intros x. destruct (Nat.eq_dec x t) as [->|N]; [rewrite set_same, HP; apply E2|rewrite set_other by exact N; apply E2].
  - intros x. destruct (Nat.eq_dec x t) as [->|N]; [rewrite set_same, HP; apply F|rewrite set_other by exact N; apply F].
  - intros x y. assert (Q : forall z, pending (set (p_at s) t p z) <-> pending (p_at s z)).
    { intros z. destruct (Nat.eq_dec z t) as [->|N]; [rewrite set_same; exact HP|rewrite set_other by exact N; tauto]. } rewrite !Q. apply G.
  - intros f Hf. destruct (H f Hf) as [Q|(x & Q)]; [left; exact Q|right]. exists x. destruct (Nat.eq_dec x t) as [->|N]; [rewrite set_same, HP; exact Q|rewrite set_other by exact N; exact Q].
  - intros x u a n Q. destruct (Nat.eq_dec x t) as [->|N]; [rewrite set_same in Q; exfalso; exact (NR u a n Q)|rewrite set_other in Q by exact N; exact (K x u a n Q)].
  - intros x. destruct (Nat.eq_dec x t) as [->|N]; [rewrite set_same; exact TB|rewrite set_other by exact N; apply L].
Qed.
(** It takes or gives the lock. *)
Lemma V_take pm s t p : V pm s -> p_lock s = None -> holding p -> (pending p <-> pending (p_at s t)) -> (forall u a n, p <> RRead u a n) -> table_ok pm p -> V pm (pgo (plock s (Some t)) t p).
Proof.
  intros [A B C D E F G H K L] LK HH HP NR TB.
  assert (Q : forall z, pending (set (p_at s) t p z) <-> pending (p_at s z)).
  { intros z. destruct (Nat.eq_dec z t) as [->|N]; [rewrite set_same; exact HP|rewrite set_other by exact N; tauto]. }
  constructor; cbn [pgo plock p_lock p_live p_fp p_regs p_at p_pos]; try assumption.
  - intros x. destruct (Nat.eq_dec x t) as [->|N]; [rewrite set_same; tauto|rewrite set_other by exact N]. rewrite <- A, LK. split; congruence.
  - intros R. destruct (E R) as (E1 & E2). split; [exact E1|]. intros x. rewrite Q. apply E2.
  - intros x. rewrite Q. apply F.
  - intros x y. rewrite !Q. apply G.
  - intros f Hf. destruct (H f Hf) as [Z|(x & Z)]; [left; exact Z|right]. exists x. rewrite Q. exact Z.
  - intros x u a n Z. destruct (Nat.eq_dec x t) as [->|N]; [rewrite set_same in Z; exfalso; exact (NR u a n Z)|rewrite set_other in Z by exact N; exact (K x u a n Z)].
  - intros x. destruct (Nat.eq_dec x t) as [->|N]; [rewrite set_same; exact TB|rewrite set_other by exact N; apply L].
Qed.
Lemma V_give pm s t p : V pm s -> holding (p_at s t) -> ~ holding p -> (pending p <-> pending (p_at s t)) -> table_ok pm p -> V pm (pgo (plock s None) t p).
Proof.
  intros [A B C D E F G H K L] HT HH HP TB.
  assert (Q : forall z, pending (set (p_at s) t p z) <-> pending (p_at s z)).
  { intros z. destruct (Nat.eq_dec z t) as [->|N]; [rewrite set_same; exact HP|rewrite set_other by exact N; tauto]. }
  constructor; cbn [pgo plock p_lock p_live p_fp p_regs p_at p_pos]; try assumption.
  - intros x. destruct (Nat.eq_dec x t) as [->|N]; [rewrite set_same; split; [discriminate|contradiction]|rewrite set_other by exact N]. rewrite <- A. apply A in HT. rewrite HT. split; congruence.
  - intros R. destruct (E R) as (E1 & E2). split; [exact E1|]. intros x. rewrite Q. apply E2.
  - intros x. rewrite Q. apply F.
  - intros x y. rewrite !Q. apply G.
  - intros f Hf. destruct (H f Hf) as [Z|(x & Z)]; [left; exact Z|right]. exists x. rewrite Q. exact Z.
  - intros x u a n Z. destruct (Nat.eq_dec x t) as [->|N]; [rewrite set_same in Z; subst p; exfalso; exact (HH Logic.I)|rewrite set_other in Z by exact N; exact (K x u a n Z)].
  - intros x. destruct (Nat.eq_dec x t) as [->|N]; [rewrite set_same; exact TB|rewrite set_other by exact N; apply L].
Qed.
Lemma V_ready pm s t : V pm s -> V pm (pready s t).
Proof. intros [A B C D E F G H K L]. constructor; assumption. Qed.
Lemma V_held pm s t : V pm s -> holding (p_at s t) -> forall x, x <> t -> ~ holding (p_at s x).
Proof. intros I H x N Q. apply (v_lock _ _ I) in H. apply (v_lock _ _ I) in Q. congruence. Qed.
(** The holder of the lock opens, gives up, moves in the file, closes. *)
Lemma V_popen pm s t : V pm s -> p_at s t = OTest -> p_fp s = FNull -> V pm (pgo (popen s) t OUnlock).
Proof.
  intros I AT FP. assert (HT : holding (p_at s t)) by (rewrite AT; exact Logic.I). pose proof (V_held pm s t I HT) as AL. destruct I as [A B C D E F G H K L].
  assert (R0 : p_regs s = 0) by (destruct (Nat.eq_dec (p_regs s) 1) as [Q|Q]; [destruct (proj1 (E Q)) as (f & Z); congruence|lia]).
  assert (NP : forall x, ~ pending (p_at s x)) by (intros x Q; destruct (F x Q) as (_ & f & Z); congruence).
  assert (NP' : forall x, ~ pending (set (p_at s) t OUnlock x)) by (intros x; destruct (Nat.eq_dec x t) as [->|N]; [rewrite set_same; exact (fun z => z)|rewrite set_other by exact N; apply NP]).
  constructor; cbn [pgo popen p_lock p_live p_fp p_regs p_at p_pos].
  - intros x. destruct (Nat.eq_dec x t) as [->|N]; [rewrite set_same, A, AT; cbn; tauto|rewrite set_other by exact N; apply A].
  - intros f Hf. destruct (Nat.eq_dec f (p_next s)) as [->|N]; [reflexivity|]. rewrite set_other in Hf by exact N. apply B in Hf. congruence.
  - intros f Hf. injection Hf as <-. apply set_same.
  - lia.
  - intros _. split; [exists (p_next s); reflexivity|exact NP'].
  - intros x Q. exfalso. exact (NP' x Q).
  - intros x y Q. exfalso. exact (NP' x Q).
  - intros f _. left. lia.
  - intros x u a n Q. exfalso. destruct (Nat.eq_dec x t) as [->|N]; [rewrite set_same in Q; discriminate|rewrite set_other in Q by exact N]. apply (AL x N). rewrite Q. exact Logic.I.
  - intros x. destruct (Nat.eq_dec x t) as [->|N]; [rewrite set_same; exact Logic.I|rewrite set_other by exact N; apply L].
Qed.
Lemma V_pnone pm s t : V pm s -> p_at s t = OTest -> p_fp s = FNull -> V pm (pgo (pnone s) t OUnlock).
Proof.
  intros I AT FP. assert (HT : holding (p_at s t)) by (rewrite AT; exact Logic.I). pose proof (V_held pm s t I HT) as AL. destruct I as [A B C D E F G H K L].
  assert (R0 : p_regs s <> 1) by (intros Q; destruct (proj1 (E Q)) as (f & Z); congruence).
  assert (NP : forall x, ~ pending (p_at s x)) by (intros x Q; destruct (F x Q) as (_ & f & Z); congruence).
  assert (NP' : forall x, ~ pending (set (p_at s) t OUnlock x)) by (intros x; destruct (Nat.eq_dec x t) as [->|N]; [rewrite set_same; exact (fun z => z)|rewrite set_other by exact N; apply NP]).
  constructor; cbn [pgo pnone p_lock p_live p_fp p_regs p_at p_pos].
  - intros x. destruct (Nat.eq_dec x t) as [->|N]; [rewrite set_same, A, AT; cbn; tauto|rewrite set_other by exact N; apply A].
  - intros f Hf. apply B in Hf. congruence.
  - discriminate.
  - exact D.
  - intros Q. contradiction.
  - intros x Q. exfalso. exact (NP' x Q).
  - intros x y Q. exfalso. exact (NP' x Q).
  - discriminate.
  - intros x u a n Q. exfalso. destruct (Nat.eq_dec x t) as [->|N]; [rewrite set_same in Q; discriminate|rewrite set_other in Q by exact N]. apply (AL x N). rewrite Q. exact Logic.I.
  - intros x. destruct (Nat.eq_dec x t) as [->|N]; [rewrite set_same; exact Logic.I|rewrite set_other by exact N; apply L].
Qed.
Lemma V_pseek pm s t f k p : V pm s -> holding (p_at s t) -> holding p -> ~ pending p -> ~ pending (p_at s t) -> p_fp s = FOpen f ->
  (forall u a n, p = RRead u a n -> a = k) -> table_ok pm p -> V pm (pgo (pseek s f k) t p).
Proof.
  intros I HT HP NP1 NP2 FP PK TB. pose proof (V_held pm s t I HT) as AL. destruct I as [A B C D E F G H K L].
  assert (Q : forall z, pending (set (p_at s) t p z) <-> pending (p_at s z)).
  { intros z. destruct (Nat.eq_dec z t) as [->|N]; [rewrite set_same; tauto|rewrite set_other by exact N; tauto]. }
  constructor; cbn [pgo pseek p_lock p_live p_fp p_regs p_at p_pos]; try assumption.
  - intros x. destruct (Nat.eq_dec x t) as [->|N]; [rewrite set_same; rewrite A; tauto|rewrite set_other by exact N; apply A].
  - intros R. destruct (E R) as (E1 & E2). split; [exact E1|]. intros x. rewrite Q. apply E2.
  - intros x. rewrite Q. apply F.
  - intros x y. rewrite !Q. apply G.
  - intros g Hg. destruct (H g Hg) as [Z|(x & Z)]; [left; exact Z|right]. exists x. rewrite Q. exact Z.
  - intros x u a n Z. destruct (Nat.eq_dec x t) as [->|N]; [rewrite set_same in Z|rewrite set_other in Z by exact N; exfalso; apply (AL x N); rewrite Z; exact Logic.I].
    exists f. split; [exact FP|]. rewrite set_same. symmetry. exact (PK u a n Z).
  - intros x. destruct (Nat.eq_dec x t) as [->|N]; [rewrite set_same; exact TB|rewrite set_other by exact N; apply L].
Qed.
Lemma V_pclose pm s t f : V pm s -> p_at s t = XTest -> p_fp s = FOpen f -> V pm (pgo (pclose s f) t XUnlock).
Proof.
  intros I AT FP. assert (HT : holding (p_at s t)) by (rewrite AT; exact Logic.I). pose proof (V_held pm s t I HT) as AL. destruct I as [A B C D E F G H K L].
  assert (PT : pending (p_at s t)) by (rewrite AT; exact Logic.I). destruct (F t PT) as (R0 & _).
  assert (NP' : forall x, ~ pending (set (p_at s) t XUnlock x)).
  { intros x. destruct (Nat.eq_dec x t) as [->|N]; [rewrite set_same; exact (fun z => z)|rewrite set_other by exact N]. intros Q. apply N. exact (G x t Q PT). }
  constructor; cbn [pgo pclose p_lock p_live p_fp p_regs p_at p_pos].
  - intros x. destruct (Nat.eq_dec x t) as [->|N]; [rewrite set_same, A, AT; cbn; tauto|rewrite set_other by exact N; apply A].
  - intros g Hg. exfalso. destruct (Nat.eq_dec g f) as [->|N]; [rewrite set_same in Hg; discriminate|rewrite set_other in Hg by exact N]. apply B in Hg. congruence.
  - discriminate.
  - exact D.
  - lia.
  - intros x Q. exfalso. exact (NP' x Q).
  - intros x y Q. exfalso. exact (NP' x Q).
  - discriminate.
  - intros x u a n Q. exfalso. destruct (Nat.eq_dec x t) as [->|N]; [rewrite set_same in Q; discriminate|rewrite set_other in Q by exact N]. apply (AL x N). rewrite Q. exact Logic.I.
  - intros x. destruct (Nat.eq_dec x t) as [->|N]; [rewrite set_same; exact Logic.I|rewrite set_other by exact N; apply L].
Qed.
Lemma V_pleave pm s t : V pm s -> (exists l, p_at s t = Free l) -> p_regs s <> 0 -> V pm (pgo (pleave s) t XLock).
Proof.
  intros [A B C D E F G H K L] (l0 & AT) R. assert (R1 : p_regs s = 1) by lia. destruct (E R1) as (E1 & E2).
  assert (Q : forall z, pending (set (p_at s) t XLock z) -> z = t).
  { intros z Z. destruct (Nat.eq_dec z t) as [->|N]; [reflexivity|rewrite set_other in Z by exact N]. exfalso. exact (E2 z Z). }
  constructor; cbn [pgo pleave p_lock p_live p_fp p_regs p_at p_pos]; try assumption.
  - intros x. destruct (Nat.eq_dec x t) as [->|N]; [rewrite set_same, A, AT; cbn; tauto|rewrite set_other by exact N; apply A].
  - lia.
  - rewrite R1. discriminate.
  - intros x _. rewrite R1. split; [reflexivity|exact E1].
  - intros x y X Y. rewrite (Q x X), (Q y Y). reflexivity.
  - intros f Hf. right. exists t. rewrite set_same. exact Logic.I.
  - intros x u a n Z. destruct (Nat.eq_dec x t) as [->|N]; [rewrite set_same in Z; discriminate|rewrite set_other in Z by exact N; exact (K x u a n Z)].
  - intros x. destruct (Nat.eq_dec x t) as [->|N]; [rewrite set_same; exact Logic.I|rewrite set_other by exact N; apply L].
Qed.
Lemma entries_seq pm a n : map pm (seq a n) = entries pm a n.
Proof.
  unfold entries. revert a. induction n as [|n IH]; intros a; [reflexivity|]. cbn [seq map]. rewrite Nat.add_0_r. f_equal. rewrite IH, <- seq_shift, map_map. apply map_ext. intros i. f_equal. lia.
Qed.
Ltac side AT := first [rewrite AT; cbn; tauto | discriminate | exact Logic.I | cbn; tauto | intros ? ? ?; discriminate].
Lemma V_step pm x s s' : V pm s -> pstep pm x s = Ok s' -> V pm s'.
Proof.
  intros I E. destruct x as [t|t a n|t a n|t|t b]; cbn [pstep] in E.
  - destruct (p_at s t) eqn:AT; injection E as <-; try exact I. apply V_go; try exact I; side AT.
  - destruct (p_at s t) eqn:AT; injection E as <-; try exact I. apply V_go; try exact I; side AT.
  - destruct (p_at s t) eqn:AT; injection E as <-; try exact I. apply V_go; try exact I; side AT.
  - destruct (p_at s t) as [l| | | | | | | | | | | | | |] eqn:AT; try (injection E as <-; exact I). destruct (p_regs s) as [|r] eqn:R; injection E as <-; [exact I|].
    apply V_pleave; [exact I|exists l; exact AT|rewrite R; discriminate].
  - destruct (p_at s t) as [l| | | | |a n|u a n|u a n|u a n|u a n|u a n l|u a n l| | |] eqn:AT.
    + injection E as <-. exact I.
    + destruct (p_fp s); injection E as <-; [apply V_go; try exact I; side AT|apply V_go|apply V_go]; try (apply V_ready; exact I); cbn [pready p_at]; side AT.
    + destruct (p_lock s) eqn:LK; injection E as <-; [exact I|]. apply V_take; try exact I; try exact LK; side AT.
    + destruct (p_fp s) eqn:FP; injection E as <-; [destruct b; [apply V_popen|apply V_pnone]; assumption|apply V_go; try exact I; side AT|apply V_go; try exact I; side AT].
    + injection E as <-. change (V pm (pgo (plock (pready s t) None) t (Free None))). apply V_give; try (apply V_ready; exact I); cbn [pready p_at]; side AT.
    + destruct (p_fp s); injection E as <-; apply V_go; try exact I; side AT.
    + destruct (p_fp s); injection E as <-; apply V_go; try exact I; side AT.
    + destruct (p_lock s) eqn:LK; injection E as <-; [exact I|]. apply V_take; try exact I; try exact LK; side AT.
    + destruct (p_fp s) as [| |f] eqn:FP; try discriminate. destruct (p_live s f); [|discriminate]. injection E as <-. apply V_pseek; try exact I; try exact FP; try (side AT).
      intros u' a' n' Q. injection Q as _ <- _. reflexivity.
    + destruct (v_seek _ _ I t u a n AT) as (g & G1 & G2). destruct (p_fp s) as [| |f] eqn:FP; try discriminate. injection G1 as ->. destruct (p_live s g); [|discriminate]. destruct b; [|discriminate]. injection E as <-.
      apply V_pseek; try exact I; try exact FP; try (side AT). cbn [table_ok]. rewrite G2. apply entries_seq.
    + injection E as <-. pose proof (v_tab _ _ I t) as TB. rewrite AT in TB. cbn [table_ok] in TB. apply V_give; try exact I; first [exact TB|side AT].
    + pose proof (v_tab _ _ I t) as TB. rewrite AT in TB. cbn [table_ok] in TB.
      destruct u, l as [l|]; try (destruct (Nat.eqb n 0); [|discriminate]); injection E as <-; apply V_go; try exact I; first [exact TB|side AT].
    + destruct (p_lock s) eqn:LK; injection E as <-; [exact I|]. apply V_take; try exact I; try exact LK; side AT.
    + assert (PT : pending (p_at s t)) by (rewrite AT; exact Logic.I). destruct (v_pend _ _ I t PT) as (_ & g & G). rewrite G in E. destruct (p_live s g); [|discriminate]. injection E as <-. apply V_pclose; assumption.
    + injection E as <-. apply V_give; try exact I; side AT.
Qed.
Lemma V_reach pm s : preach pm s -> V pm s.
Proof. induction 1 as [|s x s' R IH E]; [apply V_0|exact (V_step pm x s s' IH E)]. Qed.
Lemma pgood_reach pm s : pgood pm s -> preach pm s.
Proof. induction 1 as [|s x s' R IH _ E]; [constructor|exact (preach_s pm s x s' IH E)]. Qed.

(** ** Programs that initialise first, before the process ends *)
Record U (s : pst) : Prop := {
  u_init : forall t, p_init s t = true -> p_fp s <> FNull;
  u_ounl : forall t, p_at s t = OUnlock -> p_fp s <> FNull;
  u_test : forall t a n, p_at s t = DTest a n -> p_fp s <> FNull;
  u_rtest : forall t u a n, p_at s t = RTest u a n -> p_fp s <> FNull /\ (u = Detail -> p_fp s <> FNone);
  u_lock : forall t u a n, p_at s t = RLock u a n \/ p_at s t = RSeek u a n -> exists f, p_fp s = FOpen f;
  u_use : forall t a n l, p_at s t = Use Detail a n l -> l <> None;
  u_pend : forall t, ~ pending (p_at s t) }.
(** The variable is as before, or was NULL. *)
Lemma U_go s s' t p : U s -> (p_fp s' = p_fp s \/ p_fp s = FNull /\ p_fp s' <> FNull) -> (forall x, x <> t -> p_at s' x = p_at s x) -> p_at s' t = p ->
  (forall x, p_init s' x = true -> p_init s x = true \/ x = t /\ p_fp s' <> FNull) ->
  (p = OUnlock -> p_fp s' <> FNull) -> (forall a n, p = DTest a n -> p_fp s' <> FNull) -> (forall u a n, p = RTest u a n -> p_fp s' <> FNull /\ (u = Detail -> p_fp s' <> FNone)) ->
  (forall u a n, p = RLock u a n \/ p = RSeek u a n -> exists f, p_fp s' = FOpen f) -> (forall a n l, p = Use Detail a n l -> l <> None) -> ~ pending p -> U s'.
Proof.
  intros [A B C D E F G] FP O AT IN P1 P2 P3 P4 P5 P6.
  assert (NN : p_fp s <> FNull -> p_fp s' = p_fp s) by (intros N; destruct FP as [Q|(Q & _)]; [exact Q|contradiction]).
  constructor.
  - intros x Q. destruct (IN x Q) as [Z|(_ & Z)]; [|exact Z]. rewrite (NN (A x Z)). exact (A x Z).
  - intros x Q. destruct (Nat.eq_dec x t) as [->|N]; [rewrite AT in Q; exact (P1 Q)|rewrite O in Q by exact N]. rewrite (NN (B x Q)). exact (B x Q).
  - intros x a n Q. destruct (Nat.eq_dec x t) as [->|N]; [rewrite AT in Q; exact (P2 a n Q)|rewrite O in Q by exact N]. rewrite (NN (C x a n Q)). exact (C x a n Q).
  - intros x u a n Q. destruct (Nat.eq_dec x t) as [->|N]; [rewrite AT in Q; exact (P3 u a n Q)|rewrite O in Q by exact N]. destruct (D x u a n Q) as (Z1 & Z2). rewrite (NN Z1). split; assumption.
  - intros x u a n Q. destruct (Nat.eq_dec x t) as [->|N]; [rewrite AT in Q; exact (P4 u a n Q)|rewrite O in Q by exact N]. destruct (E x u a n Q) as (f & Z). exists f. rewrite NN; [exact Z|congruence].
  - intros x a n l Q. destruct (Nat.eq_dec x t) as [->|N]; [rewrite AT in Q; exact (P5 a n l Q)|rewrite O in Q by exact N; exact (F x a n l Q)].
  - intros x. destruct (Nat.eq_dec x t) as [->|N]; [rewrite AT; exact P6|rewrite O by exact N; apply G].
Qed.
Lemma pat_same s t p : p_at (pgo s t p) t = p.
Proof. cbn [pgo p_at]. apply set_same. Qed.
Lemma pat_other s t p x : x <> t -> p_at (pgo s t p) x = p_at s x.
Proof. intros N. cbn [pgo p_at]. apply set_other. exact N. Qed.
Ltac ugo I t := eapply (U_go _ _ t _ I); [ | |apply pat_same| | | | | | | ]; try discriminate; try (intros x N; rewrite pat_other by exact N; reflexivity); try exact (fun z => z); try (left; reflexivity); try (intros x Q; left; exact Q); try (intros ? ? ? [Q|Q]; discriminate).
Lemma U_step pm x s s' : V pm s -> U s -> init_first s x -> pstep pm x s = Ok s' -> p_exit s' = false -> U s'.
Proof.
  intros W I FI E NX. destruct x as [t|t a n|t a n|t|t b]; cbn [pstep init_first] in E, FI.
  - destruct (p_at s t) eqn:AT; injection E as <-; try exact I. ugo I t.
  - destruct (p_at s t) eqn:AT; injection E as <-; try exact I. ugo I t. intros u a' n' Q. injection Q as <- _ _. split; [exact (u_init _ I t FI)|discriminate].
  - destruct (p_at s t) eqn:AT; injection E as <-; try exact I. ugo I t. intros a' n' _. exact (u_init _ I t FI).
  - destruct (p_at s t) eqn:AT; try (injection E as <-; exact I). destruct (p_regs s); injection E as <-; [exact I|discriminate NX].
  - destruct (p_at s t) as [l| | | | |a n|u a n|u a n|u a n|u a n|u a n l|u a n l| | |] eqn:AT.
    + injection E as <-. exact I.
    + destruct (p_fp s) eqn:FP; injection E as <-; [ugo I t| |].
      * ugo I t. intros x Q. cbn [pgo pready p_init p_fp] in *. destruct (Nat.eq_dec x t) as [->|N]; [right; split; [reflexivity|rewrite FP; discriminate]|rewrite set_other in Q by exact N; left; exact Q].
      * ugo I t. intros x Q. cbn [pgo pready p_init p_fp] in *. destruct (Nat.eq_dec x t) as [->|N]; [right; split; [reflexivity|rewrite FP; discriminate]|rewrite set_other in Q by exact N; left; exact Q].
    + destruct (p_lock s) eqn:LK; injection E as <-; [exact I|]. ugo I t.
    + destruct (p_fp s) eqn:FP; injection E as <-.
      * destruct b; ugo I t; cbn [pgo popen pnone p_fp]; try (right; split; [exact FP|discriminate]); discriminate.
      * ugo I t. intros _. cbn [pgo p_fp]. rewrite FP. discriminate.
      * ugo I t. intros _. cbn [pgo p_fp]. rewrite FP. discriminate.
    + injection E as <-. pose proof (u_ounl _ I t AT) as NN. ugo I t. intros x Q. cbn [pgo plock pready p_init p_fp] in *.
      destruct (Nat.eq_dec x t) as [->|N]; [right; split; [reflexivity|exact NN]|rewrite set_other in Q by exact N; left; exact Q].
    + pose proof (u_test _ I t a n AT) as NN. destruct (p_fp s) eqn:FP; injection E as <-; [contradiction|ugo I t|ugo I t].
      intros u a' n' Q. injection Q as <- _ _. cbn [pgo p_fp]. rewrite FP. split; [discriminate|discriminate].
    + destruct (u_rtest _ I t u a n AT) as (N1 & N2). destruct (p_fp s) eqn:FP; injection E as <-; [contradiction| |].
      * ugo I t. intros a' n' l Q. injection Q as Q _ _ _. exfalso. exact (N2 Q eq_refl).
      * ugo I t. intros u' a' n' _. exists f. cbn [pgo p_fp]. exact FP.
    + destruct (p_lock s) eqn:LK; injection E as <-; [exact I|]. destruct (u_lock _ I t u a n (or_introl AT)) as (f & FP). ugo I t. intros u' a' n' _. exists f. exact FP.
    + destruct (p_fp s) as [| |f] eqn:FP; try discriminate. destruct (p_live s f); [|discriminate]. injection E as <-. ugo I t.
    + destruct (p_fp s) as [| |f] eqn:FP; try discriminate. destruct (p_live s f); [|discriminate]. destruct b; [|discriminate]. injection E as <-. ugo I t.
    + injection E as <-. ugo I t. intros a' n' l' Q. injection Q as _ _ _ <-. discriminate.
    + destruct u, l as [l|]; try (destruct (Nat.eqb n 0); [|discriminate]); injection E as <-; ugo I t.
    + exfalso. apply (u_pend _ I t). rewrite AT. exact Logic.I.
    + exfalso. apply (u_pend _ I t). rewrite AT. exact Logic.I.
    + injection E as <-. ugo I t.
Qed.
Lemma exit_grows pm x s s' : pstep pm x s = Ok s' -> p_exit s' = false -> p_exit s = false.
Proof.
  intros E NX. destruct (p_exit s) eqn:X; [|reflexivity]. rewrite <- NX. clear NX. destruct x as [t|t a n|t a n|t|t b]; cbn [pstep] in E.
  1,2,3: destruct (p_at s t); injection E as <-; symmetry; exact X.
  - destruct (p_at s t); try (injection E as <-; symmetry; exact X). destruct (p_regs s); injection E as <-; [symmetry; exact X|reflexivity].
  - destruct (p_at s t) as [l| | | | |a n|u a n|u a n|u a n|u a n|u a n l|u a n l| | |]; try (destruct (p_fp s) as [| |f]); try (destruct (p_lock s)); try (destruct (p_live s f)); try (destruct b); try (destruct u, l); try (destruct (Nat.eqb n 0));
      try discriminate E; injection E as <-; symmetry; exact X.
Qed.
Lemma U_reach pm s : pgood pm s -> p_exit s = false -> U s.
Proof.
  induction 1 as [|s x s' R IH FI E]; intros NX.
  - constructor; cbn [p0 p_init p_at p_fp]; try discriminate; intros; intuition discriminate.
  - apply (U_step pm x s s'); [apply V_reach, pgood_reach; exact R|apply IH; exact (exit_grows _ _ _ _ E NX)|exact FI|exact E|exact NX].
Qed.

(** ** The statements *)
Lemma read_right pm s t a n l : preach pm s -> p_at s t = Free (Some (a, n, l)) -> l = entries pm a n.
Proof. intros R A. pose proof (v_tab _ _ (V_reach pm s R) t) as T. rewrite A in T. exact T. Qed.
Lemma use_right pm s t u a n l : preach pm s -> p_at s t = Use u a n (Some l) -> l = entries pm a n.
Proof. intros R A. pose proof (v_tab _ _ (V_reach pm s R) t) as T. rewrite A in T. exact T. Qed.
Lemma one_user pm s t u : preach pm s -> holding (p_at s t) -> holding (p_at s u) -> t = u.
Proof. intros R A B. pose proof (V_reach pm s R) as I. apply (v_lock _ _ I) in A. apply (v_lock _ _ I) in B. congruence. Qed.
Lemma one_file pm s f g : preach pm s -> p_live s f = true -> p_live s g = true -> f = g.
Proof. intros R A B. pose proof (V_reach pm s R) as I. apply (v_live _ _ I) in A. apply (v_live _ _ I) in B. congruence. Qed.
Lemma closed_once pm s t b : preach pm s -> p_at s t = XTest -> exists f, p_live s f = true /\ pstep pm (PGo t b) s = Ok (pgo (pclose s f) t XUnlock).
Proof.
  intros R A. pose proof (V_reach pm s R) as I. assert (PT : pending (p_at s t)) by (rewrite A; exact Logic.I). destruct (v_pend _ _ I t PT) as (_ & f & F). pose proof (v_fp _ _ I f F) as L.
  exists f. split; [exact L|]. cbn [pstep]. rewrite A, F, L. reflexivity.
Qed.
Lemma closed_end pm s : preach pm s -> p_regs s = 0 -> (forall t, p_at s t <> XLock /\ p_at s t <> XTest) -> forall f, p_live s f = false.
Proof.
  intros R Z N f. pose proof (V_reach pm s R) as I. destruct (p_live s f) eqn:L; [|reflexivity]. exfalso. apply (v_live _ _ I) in L. destruct (v_open _ _ I f L) as [Q|(t & Q)]; [lia|].
  destruct (N t) as (N1 & N2). destruct (p_at s t); contradiction.
Qed.
Lemma good_no_fault pm s x : pgood pm s -> p_exit s = false -> init_first s x -> pstep pm x s <> UB /\ pstep pm x s <> OutOfFuel /\ (pstep pm x s = Abort -> exists t, x = PGo t false).
Proof.
  intros R NX FI. pose proof (V_reach pm s (pgood_reach pm s R)) as W. pose proof (U_reach pm s R NX) as I. destruct x as [t|t a n|t a n|t|t b]; cbn [pstep].
  1,2,3: destruct (p_at s t); (split; [discriminate|split; discriminate]).
  - destruct (p_at s t); try (split; [discriminate|split; discriminate]). destruct (p_regs s); (split; [discriminate|split; discriminate]).
  - destruct (p_at s t) as [l| | | | |a n|u a n|u a n|u a n|u a n|u a n l|u a n l| | |] eqn:AT; try (split; [discriminate|split; discriminate]).
    + destruct (p_fp s); (split; [discriminate|split; discriminate]).
    + destruct (p_lock s); (split; [discriminate|split; discriminate]).
    + destruct (p_fp s); (split; [discriminate|split; discriminate]).
    + destruct (p_fp s); (split; [discriminate|split; discriminate]).
    + destruct (p_fp s); (split; [discriminate|split; discriminate]).
    + destruct (p_lock s); (split; [discriminate|split; discriminate]).
    + destruct (u_lock _ I t u a n (or_intror AT)) as (f & FP). rewrite FP, (v_fp _ _ W f FP). split; [discriminate|split; discriminate].
    + destruct (v_seek _ _ W t u a n AT) as (f & FP & _). rewrite FP, (v_fp _ _ W f FP). destruct b; (split; [discriminate|split; [discriminate|]]); [discriminate|]. intros _. exists t. reflexivity.
    + destruct u, l as [l|]; try (split; [discriminate|split; discriminate]). exfalso. exact (u_use _ I t a n None AT eq_refl).
    + destruct (p_lock s); (split; [discriminate|split; discriminate]).
    + exfalso. apply (u_pend _ I t). rewrite AT. exact Logic.I.
Qed.
(** ** What goes wrong *)
Lemma play_reach pm l : forall s s', preach pm s -> pplay pm l s = Ok s' -> preach pm s'.
Proof.
  induction l as [|x l IH]; intros s s' R E; cbn [pplay] in E; [injection E as <-; exact R|]. destruct (pstep pm x s) as [s1| | |] eqn:E1; cbn [rbind] in E; try discriminate. exact (IH s1 s' (preach_s pm s x s1 R E1) E).
Qed.
Fixpoint good_play (pm : nat -> nat) (l : list pact) (s : pst) : Prop :=
  match l with [] => True | x :: l => init_first s x /\ match pstep pm x s with Ok s1 => good_play pm l s1 | _ => False end end.
Lemma play_good pm l : forall s s', pgood pm s -> good_play pm l s -> pplay pm l s = Ok s' -> pgood pm s'.
Proof.
  induction l as [|x l IH]; intros s s' R G E; cbn [pplay good_play] in E, G; [injection E as <-; exact R|]. destruct G as (FI & G). destruct (pstep pm x s) as [s1| | |] eqn:E1; cbn [rbind] in E; try discriminate.
  exact (IH s1 s' (pgood_s pm s x s1 R FI E1) G E).
Qed.
Definition open_by (t : nat) : list pact := [PInit t; PGo t true; PGo t true; PGo t true; PGo t true].
Definition after_exit (a n : nat) : list pact := open_by 0 ++ [PInit 1; PGo 1 true; PRead 1 a n; PGo 1 true; PExit 0; PGo 0 true; PGo 0 true; PGo 0 true; PGo 1 true].
Definition seen (r : res pst) (t : nat) : option (bool * bool * place * fptr) := match r with Ok s => Some (p_exit s, p_init s t, p_at s t, p_fp s) | _ => None end.
Lemma seen_ok r t e i p f : seen r t = Some (e, i, p, f) -> exists s, r = Ok s /\ p_exit s = e /\ p_init s t = i /\ p_at s t = p /\ p_fp s = f.
Proof. destruct r as [s| | |]; cbn [seen]; intros E; try discriminate E. injection E as <- <- <- <-. exists s. repeat split. Qed.
Lemma after_exit_good pm a n : good_play pm (after_exit a n) p0.
Proof. vm_compute. tauto. Qed.
Lemma exit_bad pm a n : exists s, pgood pm s /\ p_init s 1 = true /\ p_at s 1 = RSeek Cumul a n /\ pstep pm (PGo 1 true) s = UB.
Proof.
  assert (E : seen (pplay pm (after_exit a n) p0) 1 = Some (true, true, RSeek Cumul a n, FNull)) by (vm_compute; reflexivity).
  apply seen_ok in E. destruct E as (s & E & _ & A & B & C). exists s. split; [exact (play_good pm (after_exit a n) p0 s (pgood_0 pm) (after_exit_good pm a n) E)|].
  split; [exact A|]. split; [exact B|]. cbn [pstep]. rewrite B, C. reflexivity.
Qed.
Lemma detail_bad pm a n : exists s, preach pm s /\ p_exit s = false /\ p_at s 0 = RSeek Detail a n /\ pstep pm (PGo 0 true) s = UB.
Proof.
  assert (E : seen (pplay pm [PDetail 0 a n; PGo 0 true; PGo 0 true; PGo 0 true] p0) 0 = Some (false, false, RSeek Detail a n, FNull)) by (vm_compute; reflexivity).
  apply seen_ok in E. destruct E as (s & E & A & _ & B & C). exists s. split; [exact (play_reach pm _ p0 s (preach_0 pm) E)|]. split; [exact A|]. split; [exact B|]. cbn [pstep]. rewrite B, C. reflexivity.
Qed.
Definition lost_file (a n : nat) : list pact := [PDetail 1 a (S n); PGo 1 true; PInit 0; PGo 0 true; PGo 0 true; PGo 0 false; PGo 0 true; PGo 1 true].
Lemma detail_race pm a n : exists s, preach pm s /\ p_exit s = false /\ p_at s 1 = Use Detail a (S n) None /\ pstep pm (PGo 1 true) s = UB.
Proof.
  assert (E : seen (pplay pm (lost_file a n) p0) 1 = Some (false, false, Use Detail a (S n) None, FNone)) by (vm_compute; reflexivity).
  apply seen_ok in E. destruct E as (s & E & A & _ & B & _). exists s. split; [exact (play_reach pm _ p0 s (preach_0 pm) E)|]. split; [exact A|]. split; [exact B|]. cbn [pstep]. rewrite B. reflexivity.
Qed.
(** ** A read that runs alone gives the table *)
Definition read_by (t a n : nat) : list pact := [PRead t a n; PGo t true; PGo t true; PGo t true; PGo t true; PGo t true; PGo t true].
Lemma play_one pm x l s s1 : pstep pm x s = Ok s1 -> pplay pm (x :: l) s = pplay pm l s1.
Proof. intros E. cbn [pplay]. rewrite E. reflexivity. Qed.
Lemma read_done pm s t a n f l : preach pm s -> p_at s t = Free l -> p_lock s = None -> p_fp s = FOpen f -> exists s', pplay pm (read_by t a n) s = Ok s' /\ p_at s' t = Free (Some (a, n, entries pm a n)) /\ p_lock s' = None.
Proof.
  intros R A K F. pose proof (v_fp _ _ (V_reach pm s R) f F) as L. unfold read_by.
  set (s1 := pgo s t (RTest Cumul a n)). rewrite (play_one pm _ _ s s1) by (cbn [pstep]; rewrite A; reflexivity). assert (A1 : p_at s1 t = RTest Cumul a n) by apply pat_same.
  set (s2 := pgo s1 t (RLock Cumul a n)). rewrite (play_one pm _ _ s1 s2) by (cbn [pstep]; rewrite A1; cbn [s1 pgo p_fp]; rewrite F; reflexivity). assert (A2 : p_at s2 t = RLock Cumul a n) by apply pat_same.
  set (s3 := pgo (plock s2 (Some t)) t (RSeek Cumul a n)). rewrite (play_one pm _ _ s2 s3) by (cbn [pstep]; rewrite A2; cbn [s1 s2 pgo p_lock]; rewrite K; reflexivity). assert (A3 : p_at s3 t = RSeek Cumul a n) by apply pat_same.
  set (s4 := pgo (pseek s3 f a) t (RRead Cumul a n)). rewrite (play_one pm _ _ s3 s4) by (cbn [pstep]; rewrite A3; cbn [s1 s2 s3 pgo plock p_fp p_live]; rewrite F, L; reflexivity). assert (A4 : p_at s4 t = RRead Cumul a n) by apply pat_same.
  assert (P4 : p_pos s4 f = a) by (cbn [s4 pgo pseek p_pos]; apply set_same).
  set (s5 := pgo (pseek s4 f (p_pos s4 f + n)) t (RUnlock Cumul a n (map pm (seq (p_pos s4 f) n)))). rewrite (play_one pm _ _ s4 s5) by (cbn [pstep]; rewrite A4; cbn [s1 s2 s3 s4 pgo plock pseek p_fp p_live]; rewrite F, L; reflexivity).
  assert (A5 : p_at s5 t = RUnlock Cumul a n (entries pm a n)) by (unfold s5; rewrite pat_same, P4, entries_seq; reflexivity).
  set (s6 := pgo (plock s5 None) t (Use Cumul a n (Some (entries pm a n)))). rewrite (play_one pm _ _ s5 s6) by (cbn [pstep]; rewrite A5; reflexivity). assert (A6 : p_at s6 t = Use Cumul a n (Some (entries pm a n))) by apply pat_same.
  exists (pgo s6 t (Free (Some (a, n, entries pm a n)))). split; [|split; [apply pat_same|reflexivity]]. cbn [pplay pstep]. rewrite A6. reflexivity.
Qed.
