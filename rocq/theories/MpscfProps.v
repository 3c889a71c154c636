(** Consequences of the queue invariant: exactly once, order, progress. *)
From Verif Require Import MpscfModel MpscfSpec MpscfProofs.
From Coq Require Import ZArith List Bool Lia.
Import ListNotations.
Open Scope Z_scope.

Lemma dels_prefix : forall s, reach s -> prefix (dels (tr s)) (pubs (tr s)).
Proof. intros s R. destruct (reach_inv s R) as (B & Q & I). eexists. exact (i_log _ _ _ I). Qed.

Lemma never_bad : forall s, reach s -> cns s <> CBad /\ forall t, prd s t <> PBad.
Proof.
  intros s R. destruct (reach_inv s R) as (B & Q & I). split; [|exact (i_bad _ _ _ I)].
  intros E. pose proof (i_cons _ _ _ I) as IC. unfold cinv in IC. rewrite E in IC. exact IC.
Qed.

(** ** Calls of one thread *)
Definition flying (p : ppc) : list (Z * Z) :=
  match p with PPay e v | PNext1 e v | PNext2 e v | PSwap e v => [(e, v)] | _ => [] end.
Definition linking (p : ppc) : nat := match p with PLink _ _ => 1%nat | _ => O end.
Definition tinv (s : qst) (t : nat) : Prop :=
  prd s t = PBad \/
  (starts_of t (tr s) = pubs_of t (tr s) ++ flying (prd s t) /\
   length (pubs_of t (tr s)) = (rets_of t (tr s) + linking (prd s t))%nat).

Lemma tinv_tr : forall s s' t, tinv s t -> prd s' t = prd s t -> starts_of t (tr s') = starts_of t (tr s) ->
  pubs_of t (tr s') = pubs_of t (tr s) -> rets_of t (tr s') = rets_of t (tr s) -> tinv s' t.
Proof. intros s s' t H E1 E2 E3 E4. unfold tinv in *. rewrite E1, E2, E3, E4. exact H. Qed.

Lemma tinv_step : forall s a s' t, tinv s t -> step s a = Some s' -> tinv s' t.
Proof.
  intros s [u e v|u| |x n v] s' t H E; cbn [step] in E.
  - unfold start in E. destruct (prd s u) eqn:Eu; try discriminate. destruct (_ || _); [discriminate|]. injection E as <-.
    destruct (Nat.eq_dec t u) as [->|N].
    + right. cbn. rewrite updp_same, starts_app, pubs_of_app, rets_app. cbn. rewrite Nat.eqb_refl, app_nil_r. cbn.
      destruct H as [H|[H1 H2]]; [congruence|]. rewrite Eu in *. cbn in *. rewrite app_nil_r in H1. rewrite H1. split; [reflexivity|lia].
    + apply (tinv_tr s _ t H); cbn.
      * apply updp_other. exact N.
      * rewrite starts_app. cbn. destruct (Nat.eqb_spec u t) as [X|_]; [congruence|]. apply app_nil_r.
      * rewrite pubs_of_app. apply app_nil_r.
      * rewrite rets_app. cbn. lia.
  - unfold go in E. destruct (Nat.eq_dec t u) as [->|N].
    + unfold tinv in H. destruct (prd s u) as [|e v|e v|e v|e v|e p|] eqn:Eu; try discriminate.
      * injection E as <-. right. cbn. rewrite updp_same. destruct H as [H|H]; [congruence|exact H].
      * injection E as <-. right. cbn. rewrite updp_same. destruct H as [H|H]; [congruence|exact H].
      * injection E as <-. right. cbn. rewrite updp_same. destruct H as [H|H]; [congruence|exact H].
      * injection E as <-. right. cbn. rewrite updp_same, starts_app, pubs_of_app, rets_app. cbn. rewrite Nat.eqb_refl, !app_nil_r.
        destruct H as [H|[H1 H2]]; [congruence|]. cbn in *. split; [exact H1|]. rewrite app_length. cbn. lia.
      * destruct H as [H|[H1 H2]]; [congruence|]. cbn in H1, H2. destruct (p =? 0); [|destruct (busy s p)]; injection E as <-.
        -- right. cbn. rewrite updp_same, starts_app, pubs_of_app, rets_app. cbn. rewrite Nat.eqb_refl, !app_nil_r.
           rewrite app_nil_r in H1. split; [exact H1|lia].
        -- right. cbn. rewrite updp_same, starts_app, pubs_of_app, rets_app. cbn. rewrite Nat.eqb_refl, !app_nil_r.
           rewrite app_nil_r in H1. split; [exact H1|lia].
        -- left. cbn. apply updp_same.
    + assert (NE : Nat.eqb u t = false) by (apply Nat.eqb_neq; congruence).
      destruct (prd s u) as [|e v|e v|e v|e v|e p|] eqn:Eu; try discriminate;
        [| | | |destruct (p =? 0); [|destruct (busy s p)]]; injection E as <-; apply (tinv_tr s _ t H); cbn;
        rewrite ?starts_app, ?pubs_of_app, ?rets_app; cbn; rewrite ?NE, ?app_nil_r; try reflexivity; try (apply updp_other; exact N); try lia.
  - unfold consume in E. destruct (cns s); try discriminate;
      repeat match type of E with context [if ?b then _ else _] => destruct b end; injection E as <-;
      apply (tinv_tr s _ t H); cbn; rewrite ?starts_app, ?pubs_of_app, ?rets_app; cbn; rewrite ?app_nil_r; try reflexivity; try lia.
  - destruct (busy s x); [discriminate|]. injection E as <-. apply (tinv_tr s _ t H); reflexivity.
Qed.

Lemma tinv_exec : forall s l s' t, exec s l s' -> tinv s t -> tinv s' t.
Proof. induction 1 as [|s a s1 l s2 E X IH]; intros H; [exact H|]. exact (IH (tinv_step s a s1 t H E)). Qed.

Lemma tinv_reach : forall s t, reach s ->
  starts_of t (tr s) = pubs_of t (tr s) ++ flying (prd s t) /\
  length (pubs_of t (tr s)) = (rets_of t (tr s) + linking (prd s t))%nat.
Proof.
  intros s t R. destruct (never_bad s R) as [_ NB]. destruct R as (n & p & l & X).
  destruct (tinv_exec _ _ _ t X) as [H|H]; [right; split; reflexivity|exfalso; exact (NB t H)|exact H].
Qed.

Lemma program_order : forall s t, reach s -> prefix (pubs_of t (tr s)) (starts_of t (tr s)) /\
  (length (starts_of t (tr s)) <= S (rets_of t (tr s)))%nat /\ (rets_of t (tr s) <= length (pubs_of t (tr s)))%nat.
Proof.
  intros s t R. destruct (tinv_reach s t R) as [H1 H2]. split; [eexists; exact H1|]. rewrite H1, app_length.
  destruct (prd s t); cbn in *; lia.
Qed.

Lemma idle_published : forall s t, reach s -> prd s t = PIdle -> pubs_of t (tr s) = starts_of t (tr s) /\
  rets_of t (tr s) = length (starts_of t (tr s)).
Proof.
  intros s t R E. destruct (tinv_reach s t R) as [H1 H2]. rewrite E in *. cbn in *. rewrite app_nil_r in H1. rewrite H1. split; [reflexivity|lia].
Qed.

(** ** Nothing is left behind *)
Lemma quiescent : forall s, reach s -> (forall t, ~ in_flight s t) -> cns s = CIdle -> qhd s = 0 ->
  dels (tr s) = pubs (tr s).
Proof.
  intros s R NF EC EH. destruct (reach_inv s R) as (B & Q & I). pose proof (i_cons _ _ _ I) as IC. unfold cinv in IC. rewrite EC in IC. subst B.
  destruct Q as [|q Q].
  - rewrite (i_log _ _ _ I). cbn. symmetry. apply app_nil_r.
  - exfalso. destruct (i_head _ _ _ I q Q eq_refl) as [H|[_ [(t & Ht)|H]]].
    + apply (i_nz _ _ _ I). left. cbn. congruence.
    + apply (NF t). exists q, 0. exact Ht.
    + congruence.
Qed.

(** ** Progress of the consumer *)
Fixpoint behind (c : Z) (l : list Z) : nat :=
  match l with [] => O | x :: r => if x =? c then length r else behind c r end.
Lemma behind_split : forall B1 c B2, NoDup (B1 ++ c :: B2) -> behind c (B1 ++ c :: B2) = length B2.
Proof.
  induction B1 as [|a B1 IH]; intros c B2 ND; cbn.
  - rewrite Z.eqb_refl. reflexivity.
  - cbn in ND. inversion ND as [|? ? NI ND']; subst. destruct (Z.eqb_spec a c) as [->|_]; [|apply IH; exact ND'].
    exfalso. apply NI, in_or_app. right; left; reflexivity.
Qed.

Definition rank (c : cpc) (B : list Z) : nat :=
  match c with
  | CWait _ _ cur => (2 * behind cur B + 2 * length B + 2)%nat
  | CAdv _ _ cur => (2 * behind cur B + 2 * length B + 1)%nat
  | CWalk _ => (2 * length B + 1)%nat
  | CDel _ _ => (2 * length B)%nat
  | _ => O
  end.

Lemma rank_bound : forall s B Q, Inv s B Q -> (rank (cns s) B <= 4 * outstanding s + 1)%nat.
Proof.
  intros s B Q I.
  assert (O : (length B <= outstanding s)%nat).
  { unfold outstanding. rewrite (i_log _ _ _ I), !app_length, map_length, app_length. lia. }
  pose proof (i_cons _ _ _ I) as IC. unfold cinv in IC.
  assert (ND := nodup_app_l _ _ (i_nd _ _ _ I)).
  destruct (cns s); cbn [rank]; try lia.
  - destruct IC as (B1 & B2 & EB & _). rewrite EB in ND |- *. rewrite (behind_split _ _ _ ND). rewrite EB in O.
    rewrite app_length in *. cbn [length] in *. lia.
  - destruct IC as (B1 & B2 & EB & _). rewrite EB in ND |- *. rewrite (behind_split _ _ _ ND). rewrite EB in O.
    rewrite app_length in *. cbn [length] in *. lia.
Qed.

(** A step of the consumer on its batch: stalled, or closer to the end. *)
Lemma consume_rank : forall s B Q s', Inv s B Q -> taken s -> consume s = Some s' ->
  (stalled s /\ s' = set_cons s (cns s)) \/ (rank (cns s') (nB (cns s) B Q) < rank (cns s) B)%nat.
Proof.
  intros s B Q s' I T H. pose proof (inv_consume s B Q s' I H) as I'.
  unfold consume in H. unfold taken in T. pose proof (i_cons _ _ _ I) as IC. unfold cinv in IC.
  assert (ND := nodup_app_l _ _ (i_nd _ _ _ I)).
  destruct (cns s) as [| |h|h|h t cur|h t cur|e|e n|] eqn:Ec; try contradiction; cbn [nB] in *.
  - destruct IC as (B1 & B2 & EB & HH & HT & HL).
    assert (IB : In cur (B ++ Q)) by (rewrite EB; apply in_or_app; left; apply in_or_app; right; left; reflexivity).
    rewrite (i_busy _ _ _ I cur IB) in H. cbn [negb] in H. destruct (Z.eqb_spec cur t) as [E|E].
    + injection H as <-. right. cbn. destruct (nxt s cur =? 0); cbn; lia.
    + destruct (Z.eqb_spec (nxt s cur) 0) as [E0|E0].
      * injection H as <-. left. split; [|reflexivity]. destruct B2 as [|b B2].
        { exfalso. apply E. rewrite <- HT, EB. symmetry. apply last_last. }
        assert (AD : adj B cur b) by (exists B1, B2; exact EB).
        destruct (i_link _ _ _ I cur b (or_introl AD)) as [L|[_ (u & Hu)]].
        -- exfalso. apply (i_nz _ _ _ I). apply in_or_app. left. rewrite E0 in L. subst b. exact (proj2 (adj_in _ _ _ AD)).
        -- exists h, t, cur, u, b. split; [exact Ec|]. split; [exact E|exact Hu].
      * injection H as <-. right. cbn. lia.
  - destruct IC as (B1 & B2 & EB & HH & HT & HL & Nt & Nn).
    assert (IB : In cur (B ++ Q)) by (rewrite EB; apply in_or_app; left; apply in_or_app; right; left; reflexivity).
    rewrite (i_busy _ _ _ I cur IB) in H. cbn [negb] in H. injection H as <-. right. cbn.
    destruct B2 as [|b B2].
    { exfalso. apply Nn. exact (i_end _ _ _ I B1 cur (or_introl EB)). }
    assert (AD : adj B cur b) by (exists B1, B2; exact EB).
    destruct (i_link _ _ _ I cur b (or_introl AD)) as [L|[L _]]; [|congruence]. rewrite L.
    assert (EB' : B = (B1 ++ [cur]) ++ b :: B2) by (rewrite <- app_assoc; exact EB).
    assert (X1 : behind cur B = S (length B2)) by (rewrite EB in ND |- *; exact (behind_split _ _ _ ND)).
    assert (X2 : behind b B = length B2) by (rewrite EB' in ND |- *; exact (behind_split _ _ _ ND)). rewrite X1, X2. lia.
  - destruct IC as [He HL]. right. destruct (e =? 0); [injection H as <-; cbn; lia|].
    destruct B as [|b B'].
    + exfalso. cbn in He. subst e. destruct (busy s 0); cbn in H; injection H as <-; pose proof (i_cons _ _ _ I') as IC'; unfold cinv in IC'; cbn in IC';
        [destruct IC' as (l & X & _); discriminate|exact IC'].
    + destruct (busy s e); cbn in H; injection H as <-; cbn; lia.
  - destruct IC as (l & EB & En & HL). subst B. right. destruct (busy s e); cbn in H; injection H as <-; cbn; lia.
Qed.

Lemma other_cns : forall s a s', step s a = Some s' -> a <> Cons -> cns s' = cns s.
Proof.
  intros s [u e v|u| |x n v] s' H N; cbn [step] in H; try congruence.
  - unfold start in H. destruct (prd s u); try discriminate. destruct (_ || _); [discriminate|]. injection H as <-. reflexivity.
  - unfold go in H. destruct (prd s u); try discriminate; repeat match type of H with context [if ?b then _ else _] => destruct b end; injection H as <-; reflexivity.
  - destruct (busy s x); [discriminate|]. injection H as <-. reflexivity.
Qed.

Lemma other_inv : forall s B Q a s', Inv s B Q -> step s a = Some s' -> a <> Cons -> exists Q', Inv s' B Q'.
Proof.
  intros s B Q [t e v|t| |x n v] s' I H N; cbn [step] in H; try congruence.
  - exists Q. exact (inv_start s B Q t e v s' I H).
  - destruct (inv_go s B Q t s' I H) as (Q' & H' & _). exists Q'. exact H'.
  - destruct (busy s x) eqn:E; [discriminate|]. injection H as <-. exists Q. exact (inv_scribble s B Q x n v I E).
Qed.

Lemma stalled_taken : forall s, stalled s -> taken s.
Proof. intros s (h & t & cur & u & e & E & _). unfold taken. rewrite E. exact Logic.I. Qed.

Lemma run_bound : forall s n s', run taken s n s' -> forall B Q, Inv s B Q -> (n <= rank (cns s) B)%nat.
Proof.
  induction 1 as [s|s s1 n s2 P NS E R IH|s a s1 n s2 P O E R IH]; intros B Q I.
  - lia.
  - cbn [step] in E. destruct (consume_rank s B Q s1 I P E) as [[X _]|L]; [contradiction|].
    specialize (IH _ _ (inv_consume s B Q s1 I E)). lia.
  - destruct O as [N|ST].
    + destruct (other_inv s B Q a s1 I E N) as (Q' & I'). rewrite <- (other_cns s a s1 E N). exact (IH B Q' I').
    + destruct a as [t e v|t| |x k v].
      1,2,4: destruct (other_inv s B Q _ s1 I E ltac:(discriminate)) as (Q' & I'); rewrite <- (other_cns s _ s1 E ltac:(discriminate)); exact (IH B Q' I').
      cbn [step] in E. pose proof (inv_consume s B Q s1 I E) as I'. specialize (IH _ _ I').
      destruct (consume_rank s B Q s1 I P E) as [[_ X]|L].
      * assert (EC : cns s1 = cns s) by (rewrite X; reflexivity). rewrite EC in IH.
        destruct ST as (h & t & cur & u & e & EC' & _). rewrite EC' in *. exact IH.
      * lia.
Qed.

Lemma bounded : forall s n s', reach s -> run taken s n s' -> (n <= 4 * outstanding s + 1)%nat.
Proof.
  intros s n s' R H. destruct (reach_inv s R) as (B & Q & I). pose proof (run_bound s n s' H B Q I). pose proof (rank_bound s B Q I). lia.
Qed.

Definition phase (c : cpc) : nat := match c with CLoad => 3 | CClear _ => 2 | CSwap _ => 1 | _ => 0 end.
Lemma fetch_bound : forall s n s', run fetching s n s' -> (n <= phase (cns s))%nat.
Proof.
  induction 1 as [s|s s1 n s2 P NS E R IH|s a s1 n s2 P O E R IH].
  - lia.
  - cbn [step] in E. unfold fetching in P. unfold consume in E. destruct (cns s); try contradiction;
      repeat match type of E with context [if ?b then _ else _] => destruct b end; injection E as <-; cbn in *; lia.
  - destruct O as [N|ST].
    + rewrite <- (other_cns s a s1 E N). exact IH.
    + exfalso. apply stalled_taken in ST. unfold taken, fetching in *. destruct (cns s); contradiction.
Qed.

Lemma fetch_three : forall s n s', run fetching s n s' -> (n <= 3)%nat.
Proof. intros s n s' H. apply fetch_bound in H. destruct (cns s); cbn in H; lia. Qed.

(** A stall ends as soon as the producer does its next step. *)
Lemma stall_ends : forall s, reach s -> stalled s -> exists u s', in_flight s u /\ step s (Go u) = Some s' /\ ~ stalled s'.
Proof.
  intros s R (h & t & cur & u & e & EC & NT & EU). destruct (reach_inv s R) as (B & Q & I).
  assert (Hin : In cur (B ++ Q)).
  { pose proof (i_cons _ _ _ I) as IC. unfold cinv in IC. rewrite EC in IC. destruct IC as (B1 & B2 & EB & _).
    rewrite EB. apply in_or_app; left; apply in_or_app; right; left; reflexivity. }
  assert (NZ : cur <> 0) by (intros ->; exact (i_nz _ _ _ I Hin)).
  exists u. eexists. split; [exists e, cur; exact EU|].
  assert (E : step s (Go u) = Some (log (set_prod (set_nxt s cur e) u PIdle) (ERet u))).
  { cbn [step]. unfold go. rewrite EU. destruct (Z.eqb_spec cur 0); [contradiction|]. rewrite (i_busy _ _ _ I cur Hin). reflexivity. }
  split; [exact E|]. intros (h' & t' & c' & w & e' & EC' & NT' & EW).
  destruct (other_inv s B Q _ _ I E ltac:(discriminate)) as (Q' & I').
  cbn in EC'. rewrite EC in EC'. injection EC' as <- <- <-.
  assert (NE : e <> 0).
  { destruct (i_plp _ _ _ I u e cur EU NZ) as [_ A]. intros ->. exact (i_nz _ _ _ I (proj2 (adj_in2 _ _ _ _ A))). }
  destruct (i_plp _ _ _ I' w e' cur EW NZ) as [X _]. cbn in X. rewrite upd_same in X. contradiction.
Qed.

(** ** Draining *)
Lemma cons_prd : forall s s', consume s = Some s' -> prd s' = prd s /\ pubs (tr s') = pubs (tr s).
Proof.
  intros s s' H. unfold consume in H. destruct (cns s); try discriminate;
    repeat match type of H with context [if ?b then _ else _] => destruct b end; injection H as <-; split; try reflexivity.
  cbn. rewrite pubs_app. cbn. apply app_nil_r.
Qed.

Lemma cons_enabled : forall s B Q, Inv s B Q -> exists s', consume s = Some s'.
Proof.
  intros s B Q I. pose proof (i_cons _ _ _ I) as IC. unfold cinv in IC. unfold consume.
  destruct (cns s); try contradiction; repeat match goal with |- context [if ?b then _ else _] => destruct b end; eexists; reflexivity.
Qed.

Definition alone (s s' : qst) : Prop := exists n, exec s (repeat Cons n) s'.
Lemma exec_app : forall s l s1 m s2, exec s l s1 -> exec s1 m s2 -> exec s (l ++ m) s2.
Proof. induction 1; intros; [assumption|]. cbn. econstructor; eauto. Qed.
Lemma alone_trans : forall a b c, alone a b -> alone b c -> alone a c.
Proof. intros a b c (n & X) (m & Y). exists (n + m)%nat. rewrite repeat_app. exact (exec_app _ _ _ _ _ X Y). Qed.
Lemma alone_step : forall a b, consume a = Some b -> alone a b.
Proof. intros a b H. exists 1%nat. econstructor; [exact H|constructor]. Qed.

(** Once it has taken a batch, the consumer alone empties it (no producer in flight). *)
Lemma finish_batch : forall k s B Q, Inv s B Q -> (forall t, ~ in_flight s t) -> taken s -> (rank (cns s) B <= k)%nat ->
  exists s', alone s s' /\ cns s' = CIdle /\ Inv s' [] Q /\ prd s' = prd s /\ pubs (tr s') = pubs (tr s).
Proof.
  induction k as [|k IH]; intros s B Q I NF T HR.
  - exfalso. unfold taken in T. pose proof (i_cons _ _ _ I) as IC. unfold cinv in IC. destruct (cns s); cbn in HR; try contradiction; try lia.
    destruct IC as (l & -> & _). cbn in HR. lia.
  - destruct (cons_enabled s B Q I) as (s1 & E1). pose proof (inv_consume s B Q s1 I E1) as I1. destruct (cons_prd s s1 E1) as [EP EU].
    destruct (consume_rank s B Q s1 I T E1) as [[ST _]|L].
    { exfalso. destruct ST as (h & t & cur & u & e & _ & _ & X). apply (NF u). exists e, cur. exact X. }
    assert (TQ : nQ (cns s) Q = Q) by (unfold taken in T; destruct (cns s); try contradiction; reflexivity).
    rewrite TQ in I1.
    assert (D : taken s1 \/ cns s1 = CIdle).
    { unfold taken in T |- *. pose proof (i_cons _ _ _ I1) as IC1. unfold cinv in IC1. unfold consume in E1. destruct (cns s); try contradiction;
        repeat match type of E1 with context [if ?b then _ else _] => destruct b end; injection E1 as <-; cbn in *; tauto. }
    destruct D as [T1|C1].
    + assert (NF1 : forall t, ~ in_flight s1 t) by (intros t; unfold in_flight; rewrite EP; apply NF).
      destruct (IH s1 _ Q I1 NF1 T1) as (s2 & A & C2 & I2 & P2 & U2); [lia|].
      exists s2. split; [exact (alone_trans _ _ _ (alone_step _ _ E1) A)|]. split; [exact C2|]. split; [exact I2|].
      split; [congruence|congruence].
    + exists s1. split; [exact (alone_step _ _ E1)|]. split; [exact C1|]. split; [|split; [exact EP|exact EU]].
      pose proof (i_cons _ _ _ I1) as IC1. unfold cinv in IC1. rewrite C1 in IC1. rewrite IC1 in I1. exact I1.
Qed.

(** The consumer alone reaches a state where it holds a batch, or stays idle with an empty queue. *)
Lemma take_batch : forall s Q, Inv s [] Q -> (forall t, ~ in_flight s t) -> cns s = CIdle -> Q <> [] ->
  exists s', alone s s' /\ taken s' /\ Inv s' Q [] /\ prd s' = prd s /\ pubs (tr s') = pubs (tr s).
Proof.
  intros s Q I NF C NQ. destruct Q as [|q Q]; [congruence|].
  assert (HQ : qhd s = q).
  { destruct (i_head _ _ _ I q Q eq_refl) as [H|[_ [(t & Ht)|H]]]; [exact H|exfalso; apply (NF t); exists q, 0; exact Ht|congruence]. }
  assert (NZ : q <> 0) by (intros ->; apply (i_nz _ _ _ I); left; reflexivity).
  assert (NT : qtl s <> 0).
  { rewrite (i_tl _ _ _ I). intros X. apply last_nz in X; [discriminate|]. exact (i_nz _ _ _ I). }
  assert (E1 : consume s = Some (set_cons s CLoad)).
  { unfold consume. rewrite C. destruct (Z.eqb_spec (qhd s) 0); [congruence|reflexivity]. }
  pose proof (inv_consume _ _ _ _ I E1) as I1. rewrite C in I1. cbn [nB nQ] in I1.
  set (s1 := set_cons s CLoad) in *.
  assert (E2 : consume s1 = Some (set_cons s1 (CClear q))).
  { unfold consume. cbn. destruct (Z.eqb_spec (qhd s) 0); [congruence|]. rewrite HQ. reflexivity. }
  pose proof (inv_consume _ _ _ _ I1 E2) as I2. cbn [nB nQ cns s1 set_cons] in I2.
  set (s2 := set_cons s1 (CClear q)) in *.
  assert (E3 : consume s2 = Some (set_cons (set_hd s2 0) (CSwap q))) by reflexivity.
  pose proof (inv_consume _ _ _ _ I2 E3) as I3. cbn [nB nQ cns s2 set_cons] in I3.
  set (s3 := set_cons (set_hd s2 0) (CSwap q)) in *.
  assert (E4 : consume s3 = Some (set_cons (set_tl s3 0) (CWait q (qtl s) q))).
  { unfold consume. cbn. destruct (Z.eqb_spec (qtl s) 0); [congruence|reflexivity]. }
  pose proof (inv_consume _ _ _ _ I3 E4) as I4. cbn [nB nQ cns s3 set_cons] in I4.
  exists (set_cons (set_tl s3 0) (CWait q (qtl s) q)). split.
  - apply (alone_trans _ s1); [apply alone_step, E1|]. apply (alone_trans _ s2); [apply alone_step, E2|].
    apply (alone_trans _ s3); [apply alone_step, E3|]. apply alone_step, E4.
  - split; [exact Logic.I|]. split; [exact I4|]. split; reflexivity.
Qed.

Lemma drain_idle : forall s Q, Inv s [] Q -> (forall t, ~ in_flight s t) -> cns s = CIdle ->
  exists s', alone s s' /\ cns s' = CIdle /\ dels (tr s') = pubs (tr s') /\ pubs (tr s') = pubs (tr s).
Proof.
  intros s Q I NF C. destruct Q as [|q Q].
  - exists s. split; [exists O; constructor|]. split; [exact C|]. split; [|reflexivity]. rewrite (i_log _ _ _ I). cbn. symmetry. apply app_nil_r.
  - destruct (take_batch s (q :: Q) I NF C ltac:(discriminate)) as (s1 & A1 & T1 & I1 & P1 & U1).
    assert (NF1 : forall t, ~ in_flight s1 t) by (intros t; unfold in_flight; rewrite P1; apply NF).
    destruct (finish_batch _ s1 _ _ I1 NF1 T1 (le_n _)) as (s2 & A2 & C2 & I2 & P2 & U2).
    exists s2. split; [exact (alone_trans _ _ _ A1 A2)|]. split; [exact C2|]. split; [|congruence].
    rewrite (i_log _ _ _ I2). cbn. symmetry. apply app_nil_r.
Qed.

Lemma drain : forall s, reach s -> (forall t, ~ in_flight s t) ->
  exists n s', exec s (repeat Cons n) s' /\ cns s' = CIdle /\ dels (tr s') = pubs (tr s') /\ pubs (tr s') = pubs (tr s).
Proof.
  intros s R NF. destruct (reach_inv s R) as (B & Q & I).
  assert (G : forall k s B Q, (phase (cns s) <= k)%nat -> Inv s B Q -> (forall t, ~ in_flight s t) ->
     exists s', alone s s' /\ cns s' = CIdle /\ (exists Q', Inv s' [] Q') /\ prd s' = prd s /\ pubs (tr s') = pubs (tr s)).
  { clear s R NF B Q I. induction k as [|k IH]; intros s B Q HP I NF.
    - assert (D : taken s \/ cns s = CIdle).
      { unfold taken. pose proof (i_cons _ _ _ I) as IC. unfold cinv in IC. destruct (cns s); cbn in HP; try lia; tauto. }
      destruct D as [T|C].
      + destruct (finish_batch _ s _ _ I NF T (le_n _)) as (s2 & A2 & C2 & I2 & P2 & U2).
        exists s2. split; [exact A2|]. split; [exact C2|]. split; [exists Q; exact I2|]. split; assumption.
      + exists s. split; [exists O; constructor|]. split; [exact C|]. split; [|split; reflexivity]. exists Q.
        pose proof (i_cons _ _ _ I) as IC. unfold cinv in IC. rewrite C in IC. rewrite IC in I. exact I.
    - destruct (Nat.eq_dec (phase (cns s)) (S k)) as [EP|NP]; [|apply (IH s B Q); [lia|exact I|exact NF]].
      destruct (cons_enabled s B Q I) as (s1 & E1). pose proof (inv_consume s B Q s1 I E1) as I1. destruct (cons_prd s s1 E1) as [EP1 EU1].
      assert (HP1 : (phase (cns s1) <= k)%nat).
      { unfold consume in E1. destruct (cns s); cbn in EP; try discriminate;
          repeat match type of E1 with context [if ?b then _ else _] => destruct b end; injection E1 as <-; cbn; lia. }
      assert (NF1 : forall t, ~ in_flight s1 t) by (intros t; unfold in_flight; rewrite EP1; apply NF).
      destruct (IH s1 _ _ HP1 I1 NF1) as (s2 & A2 & C2 & X2 & P2 & U2).
      exists s2. split; [exact (alone_trans _ _ _ (alone_step _ _ E1) A2)|]. split; [exact C2|]. split; [exact X2|]. split; congruence. }
  destruct (G _ s B Q (le_n _) I NF) as (s1 & A1 & C1 & (Q1 & I1) & P1 & U1).
  assert (NF1 : forall t, ~ in_flight s1 t) by (intros t; unfold in_flight; rewrite P1; apply NF).
  destruct (drain_idle s1 Q1 I1 NF1 C1) as (s2 & A2 & C2 & D2 & U2).
  destruct (alone_trans _ _ _ A1 A2) as (n & X). exists n, s2. split; [exact X|]. split; [exact C2|]. split; [exact D2|congruence].
Qed.

Lemma count_diverges : forall fuel n e cur cnt, e <> 0 ->
  count_entries fuel n e cur cnt = None \/ count_entries fuel n e cur cnt = Some None.
Proof.
  induction fuel as [|f IH]; intros n e cur cnt NE; cbn; [left; reflexivity|].
  destruct (Z.eqb_spec e 0); [contradiction|]. destruct (cur =? 0); [right; reflexivity|]. apply IH. exact NE.
Qed.

(** Executable runs, for the examples. *)
Fixpoint play (s : qst) (l : list act) : option qst :=
  match l with [] => Some s | a :: r => match step s a with Some s1 => play s1 r | None => None end end.
Lemma play_exec : forall l s s', play s l = Some s' -> exec s l s'.
Proof.
  induction l as [|a l IH]; intros s s' H; cbn in H; [injection H as <-; constructor|].
  destruct (step s a) eqn:E; [|discriminate]. econstructor; [exact E|exact (IH _ _ H)].
Qed.
Definition z0 : qst := q0 (fun x => x + 7) (fun x => x * 3).
Definition at_end (l : list act) : qst := match play z0 l with Some s => s | None => z0 end.
Lemma at_end_reach : forall l, (match play z0 l with Some _ => true | None => false end) = true -> reach (at_end l).
Proof.
  intros l H. unfold at_end. destruct (play z0 l) as [s|] eqn:E; [|discriminate]. exists (fun x => x + 7), (fun x => x * 3), l. exact (play_exec _ _ _ E).
Qed.

(** Thread 1 frees 100, thread 2 frees 200 and 300; thread 2 is caught between swap and link of 200 while the owner waits. *)
Definition l_stall : list act :=
  [Start 1 100 1001; Start 2 200 2001; Go 1; Go 2; Go 1; Go 1; Go 1; Go 2; Go 2; Go 1; Cons; Cons; Go 2; Cons; Cons; Cons; Cons].
Definition l_done : list act := l_stall ++ [Go 2; Start 2 300 3001; Cons; Cons; Cons; Cons; Cons; Go 2; Cons; Cons; Go 2; Go 2; Go 2; Go 2; Cons].
