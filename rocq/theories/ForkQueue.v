(** The queue of remote frees in a child process. *)
From Verif Require Import MpscfModel MpscfSpec MpscfProofs MpscfProps ForkSpec.
From Coq Require Import ZArith List Bool Lia.
Import ListNotations.
Open Scope Z_scope.

Lemma go_other : forall s a s' u, step s a = Some s' -> a <> Go u -> (forall e v, a <> Start u e v) -> prd s' u = prd s u.
Proof.
  intros s a s' u H N1 N2. destruct a as [t e v|t| |x n v]; cbn [step] in H.
  - unfold start in H. destruct (prd s t) eqn:Et; try discriminate. destruct ((e =? 0) || busy s e); [discriminate|].
    injection H as <-. cbn. apply updp_other. intros ->. exact (N2 e v eq_refl).
  - assert (Nt : u <> t) by (intros ->; exact (N1 eq_refl)). unfold go in H. destruct (prd s t) eqn:Et; try discriminate;
      repeat match type of H with context [if ?b then _ else _] => destruct b end; injection H as <-; cbn; apply updp_other; exact Nt.
  - destruct (cons_prd s s' H) as [-> _]. reflexivity.
  - destruct (busy s x); [discriminate|]. injection H as <-. reflexivity.
Qed.
(** The head becomes NULL only by a step of the consumer. *)
Lemma head_other : forall s B Q a s', Inv s B Q -> step s a = Some s' -> a <> Cons -> qhd s <> 0 -> qhd s' <> 0.
Proof.
  intros s B Q a s' I H N Hd. destruct a as [t e v|t| |x n v]; cbn [step] in H; [| |contradiction|].
  - unfold start in H. destruct (prd s t); try discriminate. destruct ((e =? 0) || busy s e); [discriminate|]. injection H as <-. exact Hd.
  - unfold go in H. destruct (prd s t) as [|e v|e v|e v|e v|e p|] eqn:Et; try discriminate; try (injection H as <-; exact Hd).
    destruct (p =? 0) eqn:Ep; [|destruct (busy s p); injection H as <-; exact Hd]. injection H as <-. cbn. apply Z.eqb_eq in Ep. subst p.
    destruct (i_pl0 _ _ _ I t e Et) as (Z0 & _). contradiction.
  - destruct (busy s x); [discriminate|]. injection H as <-. exact Hd.
Qed.
Lemma tr_other : forall s a s', step s a = Some s' -> a <> Cons -> dels (tr s') = dels (tr s).
Proof.
  intros s a s' H N. destruct a as [t e v|t| |x n v]; cbn [step] in H; [| |contradiction|].
  - unfold start in H. destruct (prd s t); try discriminate. destruct ((e =? 0) || busy s e); [discriminate|]. injection H as <-.
    cbn. rewrite dels_app. cbn. apply app_nil_r.
  - unfold go in H. destruct (prd s t) as [|e v|e v|e v|e v|e p|] eqn:Et; try discriminate;
      repeat match type of H with context [if ?b then _ else _] => destruct b end; injection H as <-; cbn; rewrite ?dels_app; cbn;
      rewrite ?app_nil_r; reflexivity.
  - destruct (busy s x); [discriminate|]. injection H as <-. reflexivity.
Qed.

(** ** A thread is gone between its swap and its link to the entry before *)
Section Wait.
Variables (u : nat) (e p : Z) (D : list (Z * Z)).
Hypothesis NZ : p <> 0.
(** The owner has not started a purge, or is in one, with the gap in front of it. *)
Definition facing (s : qst) (B : list Z) : Prop :=
  match cns s with
  | CIdle | CLoad => qhd s <> 0
  | CClear _ | CSwap _ => True
  | CWait _ _ _ | CAdv _ _ _ => adj B p e
  | _ => False
  end.
Definition gap (s : qst) (B Q : list Z) : Prop := Inv s B Q /\ prd s u = PLink e p /\ dels (tr s) = D /\ facing s B.
Lemma gap_step : forall s B Q a s', gap s B Q -> step s a = Some s' -> a <> Go u -> (forall x v, a <> Start u x v) ->
  (exists B' Q', gap s' B' Q') /\ (a = Cons \/ cns s <> CIdle -> cns s' <> CIdle).
Proof using NZ.
  intros s B Q a s' (I & Pu & Dl & F) H N1 N2. pose proof (go_other s a s' u H N1 N2) as P1. rewrite Pu in P1.
  destruct a as [t x v|t| |x n v].
  1,2,4: destruct (other_inv s B Q _ s' I H ltac:(discriminate)) as (Q' & I'); pose proof (other_cns s _ s' H ltac:(discriminate)) as C1;
    (split; [exists B, Q'|intros [Z|Z]; [discriminate Z|rewrite C1; exact Z]]); split; [exact I'|split; [exact P1|split]];
    [rewrite (tr_other s _ s' H ltac:(discriminate)); exact Dl|unfold facing in *; rewrite C1; destruct (cns s); try exact F;
       exact (head_other s B Q _ s' I H ltac:(discriminate) F)].
  cbn [step] in H. pose proof (inv_consume s B Q s' I H) as I'.
  assert (Adj : adj B p e \/ adj Q p e) by exact (proj2 (i_plp _ _ _ I u e p Pu NZ)).
  assert (Nx : nxt s p = 0) by exact (proj1 (i_plp _ _ _ I u e p Pu NZ)).
  assert (Ne : e <> 0) by (intros ->; exact (i_nz _ _ _ I (proj2 (adj_in2 _ _ _ _ Adj)))).
  assert (K : gap s' (nB (cns s) B Q) (nQ (cns s) Q) /\ cns s' <> CIdle).
  { pose proof (i_cons _ _ _ I) as IC. unfold cinv in IC. pose proof (i_cons _ _ _ I') as IC'. unfold cinv in IC'.
    unfold gap. unfold facing in F |- *. unfold consume in H. destruct (cns s) as [| |h|h|h t cur|h t cur|x|x n|] eqn:Ec; try (exact (False_ind _ F)).
    - destruct (Z.eqb_spec (qhd s) 0) as [Z|_]; [contradiction|]. injection H as <-. cbn. (split; [|discriminate]); (split; [exact I'|]); (split; [exact Pu|]); (split; [exact Dl|]); exact F || exact Logic.I.
    - destruct (Z.eqb_spec (qhd s) 0) as [Z|_]; [contradiction|]. injection H as <-. cbn. (split; [|discriminate]); (split; [exact I'|]); (split; [exact Pu|]); (split; [exact Dl|]); exact F || exact Logic.I.
    - injection H as <-. cbn. (split; [|discriminate]); (split; [exact I'|]); (split; [exact Pu|]); (split; [exact Dl|]); exact F || exact Logic.I.
    - destruct (Z.eqb_spec (qtl s) 0) as [Z|_]; [injection H as <-; cbn in IC'; contradiction IC'|]. injection H as <-. cbn.
      split; [|discriminate]. split; [exact I'|]. split; [exact Pu|]. split; [exact Dl|]. destruct IC as (-> & _).
      destruct Adj as [A|A]; [exfalso; exact (adj_nil _ _ A)|exact A].
    - cbn [nB nQ] in *. destruct (negb (busy s cur)); [injection H as <-; cbn in IC'; contradiction IC'|].
      destruct (Z.eqb_spec cur t) as [Z|_].
      + destruct (nxt s cur =? 0); injection H as <-; cbn in IC'; [|contradiction IC']. exfalso. destruct IC' as (_ & L).
        pose proof (L p e F) as X. congruence.
      + destruct (nxt s cur =? 0); injection H as <-; cbn; (split; [|discriminate]); (split; [exact I'|]);
          (split; [exact Pu|]); (split; [exact Dl|exact F]).
    - cbn [nB nQ] in *. destruct (negb (busy s cur)); [injection H as <-; cbn in IC'; contradiction IC'|]. injection H as <-. cbn.
      split; [|discriminate]. split; [exact I'|]. split; [exact Pu|]. split; [exact Dl|exact F]. }
  destruct K as (K & C1). split; [eexists; eexists; exact K|]. intros _. exact C1.
Qed.
Lemma gap_exec : forall s l s', exec s l s' -> ~ In (Go u) l -> (forall x v, ~ In (Start u x v) l) -> forall B Q, gap s B Q ->
  (exists B' Q', gap s' B' Q') /\ (In Cons l \/ cns s <> CIdle -> cns s' <> CIdle).
Proof using NZ.
  induction 1 as [s|s a s1 l s2 E X IH]; intros N1 N2 B Q G.
  - split; [exists B, Q; exact G|]. intros [[]|Z]. exact Z.
  - destruct (gap_step s B Q a s1 G E) as ((B1 & Q1 & G1) & C1).
    + intros ->. apply N1. left. reflexivity.
    + intros x v ->. apply (N2 x v). left. reflexivity.
    + destruct (IH (fun Y => N1 (or_intror Y)) (fun x v Y => N2 x v (or_intror Y)) B1 Q1 G1) as (G2 & C2). split; [exact G2|].
      intros [[->|Y]|Y]; apply C2; [right; apply C1; left; reflexivity|left; exact Y|right; apply C1; right; exact Y].
Qed.
End Wait.

Lemma fork_waits : forall s (gone : nat -> Prop) u e p, reach s -> gone u -> prd s u = PLink e p -> p <> 0 -> cns s = CIdle -> qhd s <> 0 ->
  forall s', child_exec_own gone s s' -> cns s' <> CIdle /\ dels (tr s') = dels (tr s).
Proof.
  intros s gone u e p R Gu Pu NZ C Hd s' (l & X & W & Ic). destruct (reach_inv s R) as (B & Q & I). destruct (W u Gu) as (W1 & W2).
  assert (G : gap u e p (dels (tr s)) s B Q).
  { split; [exact I|]. split; [exact Pu|]. split; [reflexivity|]. unfold facing. rewrite C. exact Hd. }
  destruct (gap_exec u e p (dels (tr s)) NZ s l s' X W1 W2 B Q G) as ((B' & Q' & _ & _ & Dl & _) & K).
  split; [apply K; left; exact Ic|exact Dl].
Qed.

(** ** A thread is gone before it stored the head *)
Lemma hidden_step : forall s B Q u e a s', Inv s B Q -> prd s u = PLink e 0 -> cns s = CIdle -> step s a = Some s' -> a <> Go u ->
  (forall x v, a <> Start u x v) -> (exists B' Q', Inv s' B' Q') /\ prd s' u = PLink e 0 /\ cns s' = CIdle /\ dels (tr s') = dels (tr s).
Proof.
  intros s B Q u e a s' I Pu C H N1 N2. pose proof (go_other s a s' u H N1 N2) as P1. rewrite Pu in P1.
  split; [exact (inv_step s B Q a s' I H)|]. split; [exact P1|]. destruct (i_pl0 _ _ _ I u e Pu) as (Z & _).
  destruct a as [t x v|t| |x n v].
  1,2,4: split; [rewrite (other_cns s _ s' H ltac:(discriminate)); exact C|exact (tr_other s _ s' H ltac:(discriminate))].
  cbn [step] in H. unfold consume in H. rewrite C, Z in H. injection H as <-. split; reflexivity.
Qed.
Lemma hidden_exec : forall s l s' u e, exec s l s' -> ~ In (Go u) l -> (forall x v, ~ In (Start u x v) l) -> forall B Q, Inv s B Q ->
  prd s u = PLink e 0 -> cns s = CIdle -> (exists B' Q', Inv s' B' Q') /\ prd s' u = PLink e 0 /\ cns s' = CIdle /\ dels (tr s') = dels (tr s).
Proof.
  intros s l s' u e X. induction X as [s|s a s1 l s2 E X IH]; intros N1 N2 B Q I Pu C; [repeat split; eauto|].
  destruct (hidden_step s B Q u e a s1 I Pu C E) as ((B1 & Q1 & I1) & P1 & C1 & D1).
  - intros ->. apply N1. left. reflexivity.
  - intros x v ->. apply (N2 x v). left. reflexivity.
  - destruct (IH (fun Y => N1 (or_intror Y)) (fun x v Y => N2 x v (or_intror Y)) B1 Q1 I1 P1 C1) as (I2 & P2 & C2 & D2).
    repeat split; [exact I2|exact P2|exact C2|congruence].
Qed.
Lemma fork_hidden : forall s (gone : nat -> Prop) u e, reach s -> gone u -> prd s u = PLink e 0 -> cns s = CIdle ->
  forall s', child_exec gone s s' -> qhd s' = 0 /\ cns s' = CIdle /\ dels (tr s') = dels (tr s).
Proof.
  intros s gone u e R Gu Pu C s' (l & X & W). destruct (reach_inv s R) as (B & Q & I). destruct (W u Gu) as (W1 & W2).
  destruct (hidden_exec s l s' u e X W1 W2 B Q I Pu C) as ((B' & Q' & I') & P' & C' & D').
  split; [exact (proj1 (i_pl0 _ _ _ I' u e P'))|]. split; assumption.
Qed.

(** ** No thread is gone between swap and link *)
Lemma kept_out : forall s l s', exec s l s' -> forall gone, without gone l -> forall u, gone u -> prd s' u = prd s u.
Proof.
  induction 1 as [s|s a s1 l s2 E X IH]; intros gone W u Gu; [reflexivity|].
  rewrite (IH gone) by (exact Gu || (intros v Gv; destruct (W v Gv) as (W1 & W2); split; [|intros x y]; intros Y; [apply W1|apply (W2 x y)]; right; exact Y)).
  destruct (W u Gu) as (W1 & W2). apply (go_other s a s1 u E).
  - intros ->. apply W1. left. reflexivity.
  - intros x v ->. apply (W2 x v). left. reflexivity.
Qed.
Lemma reach_exec : forall s l s', reach s -> exec s l s' -> reach s'.
Proof. intros s l s' (n & p & m & X) Y. exists n, p, (m ++ l). exact (exec_app _ _ _ _ _ X Y). Qed.
Lemma fork_wait_ends : forall s (gone : nat -> Prop), reach s -> (forall u, gone u -> ~ in_flight s u) -> forall s', child_exec gone s s' -> stalled s' ->
  exists u s2, ~ gone u /\ step s' (Go u) = Some s2 /\ ~ stalled s2.
Proof.
  intros s gone R NF s' (l & X & W) St. destruct (stall_ends s' (reach_exec s l s' R X) St) as (u & s2 & Fl & E & K).
  exists u, s2. split; [|split; assumption]. intros Gu. apply (NF u Gu). unfold in_flight in *. rewrite <- (kept_out s l s' X gone W u Gu). exact Fl.
Qed.
Lemma fork_drain : forall s (gone : nat -> Prop), reach s -> (forall u, gone u -> ~ in_flight s u) -> forall s', child_exec gone s s' ->
  (forall u, ~ gone u -> prd s' u = PIdle) ->
  exists n s2, exec s' (repeat Cons n) s2 /\ cns s2 = CIdle /\ dels (tr s2) = pubs (tr s2) /\ pubs (tr s2) = pubs (tr s').
Proof.
  intros s gone R NF s' (l & X & W) Id. apply (drain s' (reach_exec s l s' R X)). intros u (x & q & Pu).
  assert (Ng : ~ ~ gone u) by (intros Y; rewrite (Id u Y) in Pu; discriminate). apply Ng. intros Gu. apply (NF u Gu).
  exists x, q. rewrite <- (kept_out s l s' X gone W u Gu). exact Pu.
Qed.
