(** The queue of remote frees and the handlers of signals of its owner. *)
From Verif Require Import MpscfModel MpscfSpec MpscfProofs MpscfProps MpscfGiven SignalSpec.
From Coq Require Import ZArith List Bool Lia.
Import ListNotations.
Open Scope Z_scope.

Lemma set_twice : forall s a b, set_cons (set_cons s a) b = set_cons s b.
Proof. reflexivity. Qed.
Lemma set_same : forall s, set_cons s (cns s) = s.
Proof. intros []; reflexivity. Qed.
(** The other threads do not look at the place of the owner. *)
Lemma step_blind : forall s c a s1, a <> Cons -> step (set_cons s c) a = Some s1 -> step s a = Some (set_cons s1 (cns s)) /\ cns s1 = c.
Proof.
  intros [n p h t pr cn b tr] c [u e v|u| |x y z] s1 N H; cbn [step] in *.
  - unfold start in *. cbn in *. destruct (pr u); try discriminate. destruct ((e =? 0) || b e); [discriminate|].
    injection H as <-. split; reflexivity.
  - unfold go in *. cbn in *. destruct (pr u) as [|e v|e v|e v|e v|e q|]; try discriminate; try (injection H as <-; split; reflexivity).
    destruct (q =? 0); [injection H as <-; split; reflexivity|]. destruct (b q); injection H as <-; split; reflexivity.
  - contradiction.
  - cbn in *. destruct (b x); [discriminate|]. injection H as <-. split; reflexivity.
Qed.
(** The head is cleared: the handler finds nothing. *)
Lemma hidden_exec : forall s0 l s1, exec s0 l s1 -> forall s h B Q, Inv s B Q -> cns s = CSwap h -> s0 = set_cons s CIdle ->
  cns s1 = CIdle /\ exists B1 Q1, Inv (set_cons s1 (CSwap h)) B1 Q1.
Proof.
  induction 1 as [s0|s0 a s1 l s2 H X IH]; intros s h B Q I C ->.
  - split; [reflexivity|]. exists B, Q. rewrite set_twice, <- C, set_same. exact I.
  - pose proof (i_cons _ _ _ I) as IC. unfold cinv in IC. rewrite C in IC. destruct IC as (_ & Hh & _).
    assert (D : a = Cons \/ a <> Cons) by (destruct a; (left; reflexivity) || (right; discriminate)).
    destruct D as [->|N].
    + cbn [step] in H. unfold consume in H. cbn in H. rewrite Hh in H. cbn in H. injection H as <-.
      apply (IH s h B Q I C). reflexivity.
    + destruct (step_blind s CIdle a s1 N H) as (H1 & C1). destruct (inv_step s B Q a _ I H1) as (B1 & Q1 & I1).
      apply (IH (set_cons s1 (cns s)) h B1 Q1 I1); [cbn; exact C|]. rewrite set_twice, <- C1, set_same. reflexivity.
Qed.
Lemma idle_inv : forall s B Q, Inv s B Q -> B = [] -> (forall h, cns s <> CSwap h) -> forall c, c = CIdle \/ c = CLoad -> Inv (set_cons s c) [] Q.
Proof.
  intros s B Q I -> N c Hc. apply inv_cons; [exact I|exact N|intros h; destruct Hc as [->| ->]; discriminate|].
  unfold cinv. cbn. destruct Hc as [->| ->]; reflexivity.
Qed.
Lemma purge_inv : forall s s' B Q, Inv s B Q -> may_enter (cns s) -> handler_purge s s' -> exists B' Q', Inv s' B' Q'.
Proof.
  intros s s' B Q I M (l & s1 & X & C1 & ->). destruct M as [C|[C|(h & C)]].
  - pose proof (i_cons _ _ _ I) as IC. unfold cinv in IC. rewrite C in IC.
    destruct (exec_inv _ _ _ X [] Q) as (B1 & Q1 & I1); [apply (idle_inv s B Q I IC); [rewrite C; discriminate|left; reflexivity]|].
    pose proof (i_cons _ _ _ I1) as IC1. unfold cinv in IC1. rewrite C1 in IC1.
    exists [], Q1. rewrite C. apply (idle_inv s1 B1 Q1 I1 IC1); [rewrite C1; discriminate|left; reflexivity].
  - pose proof (i_cons _ _ _ I) as IC. unfold cinv in IC. rewrite C in IC.
    destruct (exec_inv _ _ _ X [] Q) as (B1 & Q1 & I1); [apply (idle_inv s B Q I IC); [rewrite C; discriminate|left; reflexivity]|].
    pose proof (i_cons _ _ _ I1) as IC1. unfold cinv in IC1. rewrite C1 in IC1.
    exists [], Q1. rewrite C. apply (idle_inv s1 B1 Q1 I1 IC1); [rewrite C1; discriminate|right; reflexivity].
  - destruct (hidden_exec _ _ _ X s h B Q I C eq_refl) as (_ & B1 & Q1 & I1). exists B1, Q1. rewrite C. exact I1.
Qed.
Lemma hreach_inv : forall s, hreach s -> exists B Q, Inv s B Q.
Proof.
  induction 1 as [n p|s a s' R (B & Q & I) H|s s' R (B & Q & I) M P].
  - exists [], []. exact (inv0 n p).
  - exact (inv_step s B Q a s' I H).
  - exact (purge_inv s s' B Q I M P).
Qed.
Lemma hreach_safe : forall s, hreach s -> cns s <> CBad /\ (forall t, prd s t <> PBad) /\ prefix (dels (tr s)) (pubs (tr s)).
Proof.
  intros s R. destruct (hreach_inv s R) as (B & Q & I). split; [|split].
  - intros C. pose proof (i_cons _ _ _ I) as IC. unfold cinv in IC. rewrite C in IC. exact IC.
  - exact (i_bad _ _ _ I).
  - eexists. exact (i_log _ _ _ I).
Qed.
Lemma bal_hreach s : hreach s -> balanced s.
Proof.
  induction 1 as [n p|s a s' R IH H|s s' R IH M (l & s1 & X & C & ->)]; [intros e; reflexivity|exact (bal_step s a s' H IH)|].
  apply (bal_same s1); [reflexivity|reflexivity|]. apply (bal_exec _ _ _ X). apply (bal_same s); [reflexivity|reflexivity|exact IH].
Qed.
(** Interrupted between the read of the head and the store that clears it. *)
Lemma clear_bad : forall s h, hreach s -> cns s = CClear h -> (forall t, ~ in_flight s t) ->
  exists s1 s2, handler_purge s s1 /\ In h (map fst (dels (tr s1))) /\ busy s1 h = false /\ exec s1 [Cons; Cons] s2 /\ cns s2 = CBad.
Proof.
  intros s h R C NF. destruct (hreach_inv s R) as (B & Q & I). pose proof (i_cons _ _ _ I) as IC. unfold cinv in IC. rewrite C in IC.
  destruct IC as (-> & Hh & Nh).
  assert (I0 : Inv (set_cons s CIdle) [] Q) by (apply (idle_inv s [] Q I eq_refl); [rewrite C; discriminate|left; reflexivity]).
  destruct Q as [|q Q]; [rewrite (i_empty _ _ _ I eq_refl) in Hh; congruence|].
  assert (Hq : q = h) by (destruct (i_head _ _ _ I q Q eq_refl) as [E|[E _]]; congruence). subst q.
  destruct (take_batch (set_cons s CIdle) (h :: Q) I0 NF eq_refl ltac:(discriminate)) as (s1 & A1 & T1 & I1 & P1 & U1).
  assert (NF1 : forall t, ~ in_flight s1 t) by (intros t; unfold in_flight; rewrite P1; apply NF).
  destruct (finish_batch _ s1 _ _ I1 NF1 T1 (le_n _)) as (s2 & A2 & C2 & I2 & P2 & U2).
  destruct (alone_trans _ _ _ A1 A2) as (n & X).
  exists (set_cons s2 (CClear h)), (set_cons (set_tl (set_cons (set_hd (set_cons s2 (CClear h)) 0) (CSwap h)) 0) CBad).
  split; [|split; [|split; [|split; [|reflexivity]]]].
  - exists (repeat Cons n), s2. split; [exact X|]. split; [exact C2|]. rewrite C. reflexivity.
  - cbn. pose proof (i_log _ _ _ I2) as L. cbn in L. rewrite app_nil_r in L. rewrite <- L, U2, U1. cbn.
    rewrite (i_log _ _ _ I). cbn. rewrite map_app. apply in_or_app. right. left. reflexivity.
  - cbn. pose proof (bal_hreach s R) as BL. pose proof (bal_alone n _ _ X BL h) as G. cbn in G.
    pose proof (bal_exec _ _ _ X BL h) as B2. rewrite G, (BL h) in B2. rewrite !back_dels in B2.
    pose proof (i_log _ _ _ I2) as L. cbn in L. rewrite app_nil_r in L. rewrite <- L, U2, U1 in B2. cbn in B2. rewrite (i_log _ _ _ I) in B2.
    cbn in B2. rewrite filter_app, app_length in B2. cbn [map filter fst] in B2. rewrite Z.eqb_refl in B2. cbn [length] in B2.
    destruct (busy s h), (busy s2 h); lia.
  - pose proof (i_tl _ _ _ I2) as TL. cbn in TL. eapply exec_cons; [reflexivity|]. eapply exec_cons; [|apply exec_nil].
    cbn [step]. unfold consume. cbn. rewrite TL. reflexivity.
Qed.

(** Executions as a function, for the examples. *)
Fixpoint go_on (s : qst) (l : list act) : option qst :=
  match l with [] => Some s | a :: r => match step s a with Some s1 => go_on s1 r | None => None end end.
Lemma go_exec : forall l s s', go_on s l = Some s' -> exec s l s'.
Proof.
  induction l as [|a l IH]; intros s s' H; cbn [go_on] in H.
  - injection H as <-. apply exec_nil.
  - destruct (step s a) as [s1|] eqn:E; [|discriminate]. exact (exec_cons s a s1 l s' E (IH s1 s' H)).
Qed.
Lemma exec_hreach : forall s l s', exec s l s' -> hreach s -> hreach s'.
Proof. induction 1 as [s|s a s1 l s2 H X IH]; intros R; [exact R|]. apply IH. exact (hr_step s a s1 R H). Qed.
