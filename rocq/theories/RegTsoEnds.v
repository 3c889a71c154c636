(** Every call of the registry can end (C83): proofs. *)
From Verif Require Import Word Res RegionModel RegConcModel RegTsoModel RegTsoSpec RegTsoProofs.
From Coq Require Import ZArith List Bool Lia Arith.
Import ListNotations.
Open Scope Z_scope.

(** The lock has a holder. *)
Definition held (s : xst) : Prop := x_lck s = true -> exists u, crit s u.
Lemma held_move s s' : held s -> (x_lck s' = x_lck s) -> (forall u, crit s u -> exists v, crit s' v) -> held s'.
Proof. intros H E C L. rewrite E in L. destruct (H L) as (u & K). exact (C u K). Qed.
Lemma crit_goto s t q u : (inside (x_at s t) -> inside q) -> crit s u -> crit (x_goto s t q) u.
Proof. intros H [K|K]; [left|right; exact K]. cbn. unfold fupd. destruct (Nat.eqb_spec u t) as [->|N]; [exact (H K)|exact K]. Qed.
Lemma crit_push s t w u : crit s u -> crit (x_push s t w) u.
Proof. intros [K|K]; [left; exact K|right]. cbn. unfold fupd. destruct (Nat.eqb_spec u t) as [->|N]; [apply in_or_app; left; exact K|exact K]. Qed.
Lemma held_0 : held x0. Proof. intros H. discriminate H. Qed.
Lemma held_step s a s' : held s -> xvalid s a -> xstep true true a s = Ok s' -> held s'.
Proof.
  intros H V E.
  assert (ID : forall t, idle (x_at s t) -> ~ inside (x_at s t)) by (intros t K; destruct (x_at s t); cbn in *; tauto).
  assert (G : forall t q, (inside (x_at s t) -> inside q) -> held (x_goto s t q)).
  { intros t q K. apply (held_move s); [exact H|reflexivity|]. intros u C. exists u. apply crit_goto; assumption. }
  assert (P : forall s1 t w, held s1 -> held (x_push s1 t w)).
  { intros s1 t w K. apply (held_move s1); [exact K|reflexivity|]. intros u C. exists u. apply crit_push. exact C. }
  assert (U : forall t q, held (x_push (x_goto s t q) t WFree)).
  { intros t q L. exists t. right. cbn. rewrite fupd_at. apply in_or_app. right. left. reflexivity. }
  destruct a as [t c b sz|t b|t p|t b u|t b|t|t i]; cbn [xstep xvalid] in *.
  - injection E as <-. apply P. refine (G t (QLoop (WSet b b)) _). intros K. destruct (ID t (proj1 V) K).
  - injection E as <-. refine (G t (QLoop (WUnset b b)) _). intros K. destruct (ID t (proj1 V) K).
  - injection E as <-. apply G. intros K. destruct (ID t (proj1 V) K).
  - injection E as <-. apply P. apply G. intros K. destruct (ID t (proj1 V) K).
  - injection E as <-. exact H.
  - unfold x_go in E. destruct (x_at s t) as [| |? ? ?|w|w|w|w|w|w q|w q|w q|? e|? b|b] eqn:A; try (injection E as <-; exact H).
    + unfold x_loop in E. destruct w as [b a|b a|?|?]; try discriminate; (destruct (negb (mapped s b)); [discriminate|]); [destruct (a <? _)|]; injection E as <-.
      * apply G. rewrite A. intros [].
      * refine (G t QDone _). rewrite A. intros [].
      * apply G. rewrite A. intros [].
    + destruct (get_id (target w)); try discriminate. injection E as <-. apply G. rewrite A. intros [].
    + destruct (x_lck s || waits true s t); injection E as <-; [exact H|]. intros L. exists t. left. cbn. rewrite fupd_at. exact Logic.I.
    + destruct (get_id (target w)); try discriminate. injection E as <-. apply G. intros _. destruct (m_regs (view s t) a); exact Logic.I.
    + destruct (get_id (target w)); try discriminate. injection E as <-. apply P. refine (G t (QUnlock w (x_next s)) _). intros _. exact Logic.I.
    + injection E as <-. apply U.
    + unfold x_read in E. destruct w; [destruct (_ =? 0); [|discriminate]| | |]; injection E as <-; apply G; rewrite A; intros [].
    + destruct w; try discriminate; injection E as <-; apply P; apply G; rewrite A; intros [].
    + destruct (negb (mapped s e)); [discriminate|]. injection E as <-. apply G. rewrite A. intros [].
    + destruct (b =? 0); [injection E as <-; apply G; rewrite A; intros []|]. destruct (negb (mapped s b)); [discriminate|]. injection E as <-. apply G. rewrite A. intros [].
    + destruct (waits true s t); injection E as <-; [exact H|]. refine (G t QDone _). rewrite A. intros [].
  - injection E as <-. unfold x_flush. destruct (nth_error (x_buf s t) i) as [w|] eqn:N; [|exact H]. destruct (Nat.eqb_spec i 0) as [->|Q]; [|exact H].
    destruct (x_buf s t) as [|w' l] eqn:B; [discriminate|]. cbn in N. injection N as ->. cbn [firstn skipn app]. intros L. cbn [x_lck] in L.
    assert (W : w <> WFree) by (intros ->; discriminate L). assert (L' : x_lck s = true) by (destruct w; try exact L; congruence). destruct (H L') as (u & [K|K]); exists u; [left; exact K|right].
    cbn. unfold fupd. destruct (Nat.eqb_spec u t) as [->|Z]; [|exact K]. rewrite B in K. destruct K as [K|K]; [congruence|exact K].
Qed.
Lemma reach_held s : xreach true true s -> held s.
Proof. induction 1 as [|s a s' _ H V E]; [exact held_0|exact (held_step s a s' H V E)]. Qed.

(** ** The threads go on. *)
Lemma goes_trans s s1 s2 : goes_on s s1 -> goes_on s1 s2 -> goes_on s s2.
Proof. induction 1 as [|s a sa s' A E _ IH]; [auto|]. intros H. exact (goes_step s a sa s2 A E (IH H)). Qed.
Lemma goes_reach s s' : goes_on s s' -> xreach true true s -> xreach true true s'.
Proof.
  induction 1 as [|s a sa s' A E _ IH]; [auto|]. intros R. apply IH. refine (xreach_step _ _ s a sa R _ E). destruct A as (t & [->|(i & ->)]); exact Logic.I.
Qed.
Lemma goes_go s t s' : x_go true t s = Ok s' -> goes_on s s'.
Proof. intros E. refine (goes_step s (SGo t) s' s' _ E (goes_same s')). exists t. left. reflexivity. Qed.
(** The buffer of [u] empties. *)
Lemma drain s u : exists s', goes_on s s' /\ x_buf s' u = [] /\ x_at s' = x_at s /\ x_map s' = x_map s /\ (In WFree (x_buf s u) \/ x_lck s = false -> x_lck s' = false) /\
  (forall v, v <> u -> x_buf s' v = x_buf s v).
Proof.
  remember (x_buf s u) as l eqn:B. symmetry in B. revert s B. induction l as [|w l IH]; intros s B.
  - exists s. split; [apply goes_same|]. repeat split; auto. intros [[]|H]; exact H.
  - set (s1 := x_flush true s u 0).
    assert (E : s1 = mkX (apply (x_m s) w) (match w with WFree => false | _ => x_lck s end) (fupd (x_buf s) u l) (x_map s)
      (match w with WGive b v => (v, b) :: x_know s | _ => x_know s end) (x_at s) (x_next s)) by (unfold s1, x_flush; rewrite B; reflexivity).
    destruct (IH s1) as (s' & G & H1 & H2 & H3 & H4 & H5); [rewrite E; cbn; apply fupd_at|].
    exists s'. split; [exact (goes_step s (SFlush u 0) s1 s' (ex_intro _ u (or_intror (ex_intro _ O eq_refl))) eq_refl G)|]. split; [exact H1|].
    split; [rewrite H2, E; reflexivity|]. split; [rewrite H3, E; reflexivity|]. split.
    + intros H. apply H4. rewrite E. cbn. destruct w; auto; destruct H as [[H|H]|H]; auto; discriminate H.
    + intros v N. rewrite (H5 v N), E. cbn. apply fupd_ne. exact N.
Qed.
Lemma step_of s t : xreach true true s -> exists s', x_go true t s = Ok s' /\ xreach true true s' /\ goes_on s s'.
Proof.
  intros R. destruct (no_stop s (SGo t) R Logic.I) as (s' & E & R'). exists s'. split; [exact E|]. split; [exact R'|]. exact (goes_go s t s' E).
Qed.
(** A thread that makes a region header comes out of it. *)
Lemma leave s u : xreach true true s -> inside (x_at s u) -> exists s', goes_on s s' /\ In WFree (x_buf s' u) /\ (forall v, v <> u -> x_at s' v = x_at s v /\ x_buf s' v = x_buf s v).
Proof.
  assert (A : forall s w r, xreach true true s -> x_at s u = QUnlock w r -> exists s', goes_on s s' /\ In WFree (x_buf s' u) /\ (forall v, v <> u -> x_at s' v = x_at s v /\ x_buf s' v = x_buf s v)).
  { intros s1 w r R E. destruct (step_of s1 u R) as (s' & G & _ & K). unfold x_go in G. rewrite E in G. injection G as <-. eexists. split; [exact K|]. cbn. rewrite fupd_at.
    split; [apply in_or_app; right; left; reflexivity|]. intros v N. split; apply fupd_ne; exact N. }
  assert (B : forall s w, xreach true true s -> x_at s u = QMap w -> exists s', goes_on s s' /\ In WFree (x_buf s' u) /\ (forall v, v <> u -> x_at s' v = x_at s v /\ x_buf s' v = x_buf s v)).
  { intros s1 w R E. destruct (step_of s1 u R) as (s2 & G & R2 & K). unfold x_go in G. rewrite E in G. destruct (get_id (target w)) as [id| | |]; try discriminate. injection G as <-.
    destruct (A _ w (x_next s1) R2) as (s' & K' & W & F); [cbn; apply fupd_at|]. exists s'. split; [exact (goes_trans _ _ _ K K')|]. split; [exact W|].
    intros v N. destruct (F v N) as (F1 & F2). rewrite F1, F2. cbn. rewrite !fupd_ne by exact N. auto. }
  intros R H. destruct (x_at s u) as [| |? ? ?|w|w|w|w|w|w q|w q|w q|? e|? b|b] eqn:E; try destruct H.
  - destruct (step_of s u R) as (s2 & G & R2 & K). unfold x_go in G. rewrite E in G. destruct (get_id (target w)) as [id| | |]; try discriminate. injection G as <-.
    destruct (m_regs (view s u) id) as [r|].
    + destruct (A _ w r R2) as (s' & K' & W & F); [cbn; apply fupd_at|]. exists s'. split; [exact (goes_trans _ _ _ K K')|]. split; [exact W|].
      intros v N. destruct (F v N) as (F1 & F2). rewrite F1, F2. cbn. rewrite !fupd_ne by exact N. auto.
    + destruct (B _ w R2) as (s' & K' & W & F); [cbn; apply fupd_at|]. exists s'. split; [exact (goes_trans _ _ _ K K')|]. split; [exact W|].
      intros v N. destruct (F v N) as (F1 & F2). rewrite F1, F2. cbn. rewrite !fupd_ne by exact N. auto.
  - exact (B s w R E).
  - exact (A s w q R E).
Qed.
(** The lock becomes free for a thread that waits for it. *)
Lemma free_lock s t : xreach true true s -> ~ inside (x_at s t) -> exists s', goes_on s s' /\ x_lck s' = false /\ x_buf s' t = [] /\ x_at s' t = x_at s t.
Proof.
  intros R NI. destruct (drain s t) as (s1 & G1 & B1 & A1 & _ & L1 & _). pose proof (goes_reach _ _ G1 R) as R1.
  destruct (x_lck s1) eqn:L; [|exists s1; rewrite A1; auto]. destruct (reach_held s1 R1 L) as (u & C).
  assert (N : u <> t). { intros ->. destruct C as [C|C]; [rewrite A1 in C; exact (NI C)|rewrite B1 in C; exact C]. }
  assert (X : exists s2, goes_on s1 s2 /\ In WFree (x_buf s2 u) /\ (forall v, v <> u -> x_at s2 v = x_at s1 v /\ x_buf s2 v = x_buf s1 v)).
  { destruct C as [C|C]; [exact (leave s1 u R1 C)|]. exists s1. split; [apply goes_same|]. auto. }
  destruct X as (s2 & G2 & W2 & F2). destruct (drain s2 u) as (s3 & G3 & B3 & A3 & _ & L3 & F3).
  exists s3. split; [exact (goes_trans _ _ _ G1 (goes_trans _ _ _ G2 G3))|]. split; [apply L3; left; exact W2|].
  split; [rewrite (F3 t ltac:(congruence)); destruct (F2 t ltac:(congruence)) as (_ & ->); exact B1|].
  rewrite A3. destruct (F2 t ltac:(congruence)) as (-> & _). rewrite A1. reflexivity.
Qed.

Definition nextw (w : work) : work := match w with WSet b a => WSet b (add64 a MB2) | WUnset b a => WUnset b (add64 a MB2) | w => w end.
Definition goal (t : nat) (w : work) (s : xst) : Prop := exists s', goes_on s s' /\ x_at s' t = QLoop (nextw w).
Lemma goal_step t w s s1 : goes_on s s1 -> goal t w s1 -> goal t w s.
Proof. intros G (s' & K & E). exists s'. split; [exact (goes_trans _ _ _ G K)|exact E]. Qed.
Lemma end_write s t w r : xreach true true s -> x_at s t = QWrite w r -> goal t w s.
Proof.
  intros R E. destruct (step_of s t R) as (s' & G & _ & K). unfold x_go in G. rewrite E in G. exists s'. split; [exact K|]. destruct w; try discriminate; injection G as <-; cbn; apply fupd_at.
Qed.
Lemma end_read s t w r : xreach true true s -> handles (x_at s t) <> None -> x_at s t = QRead w r -> goal t w s.
Proof.
  intros R S E. destruct (step_of s t R) as (s' & G & R' & K). unfold x_go in G. rewrite E in G. cbn [x_read] in G. destruct w as [b a|b a|p|p].
  - unfold x_read in G. destruct (_ =? 0); [|discriminate]. injection G as <-. apply (goal_step _ _ _ _ K). apply (end_write _ t (WSet b a) r R'). cbn. apply fupd_at.
  - unfold x_read in G. destruct (_ =? b); injection G as <-; [apply (goal_step _ _ _ _ K); apply (end_write _ t (WUnset b a) r R'); cbn; apply fupd_at|].
    eexists. split; [exact K|]. cbn. apply fupd_at.
  - rewrite E in S. destruct S. reflexivity.
  - rewrite E in S. destruct S. reflexivity.
Qed.
Definition setter (w : work) : Prop := match w with WSet _ _ | WUnset _ _ => True | _ => False end.
Lemma end_read' s t w r : xreach true true s -> setter w -> x_at s t = QRead w r -> goal t w s.
Proof. intros R S E. apply (end_read s t w r R); [|exact E]. rewrite E. destruct w; try destruct S; discriminate. Qed.
Lemma end_unlock s t w r : xreach true true s -> setter w -> x_at s t = QUnlock w r -> goal t w s.
Proof.
  intros R S E. destruct (step_of s t R) as (s' & G & R' & K). unfold x_go in G. rewrite E in G. injection G as <-. apply (goal_step _ _ _ _ K). apply (end_read' _ t w r R' S). cbn. apply fupd_at.
Qed.
Lemma end_map s t w : xreach true true s -> setter w -> x_at s t = QMap w -> goal t w s.
Proof.
  intros R S E. destruct (step_of s t R) as (s' & G & R' & K). unfold x_go in G. rewrite E in G. destruct (get_id (target w)); try discriminate. injection G as <-.
  apply (goal_step _ _ _ _ K). apply (end_unlock _ t w (x_next s) R' S). cbn. apply fupd_at.
Qed.
Lemma end_look s t w : xreach true true s -> setter w -> x_at s t = QLook w -> goal t w s.
Proof.
  intros R S E. destruct (step_of s t R) as (s' & G & R' & K). unfold x_go in G. rewrite E in G. destruct (get_id (target w)) as [id| | |]; try discriminate. injection G as <-.
  apply (goal_step _ _ _ _ K). destruct (m_regs (view s t) id) as [r|]; [apply (end_unlock _ t w r R' S)|apply (end_map _ t w R' S)]; cbn; apply fupd_at.
Qed.
Lemma end_lock s t w : xreach true true s -> setter w -> x_at s t = QLock w -> goal t w s.
Proof.
  intros R S E. destruct (free_lock s t R) as (s1 & G1 & L & B & A); [rewrite E; intros []|]. pose proof (goes_reach _ _ G1 R) as R1. rewrite E in A.
  apply (goal_step _ _ _ _ G1). destruct (step_of s1 t R1) as (s' & G & R' & K). unfold x_go in G. rewrite A, L in G. unfold waits in G. rewrite B in G. cbn in G. injection G as <-.
  apply (goal_step _ _ _ _ K). apply (end_look _ t w R' S). cbn. apply fupd_at.
Qed.
Lemma end_get s t w : xreach true true s -> setter w -> x_at s t = QGet w -> goal t w s.
Proof.
  intros R S E. destruct (step_of s t R) as (s' & G & R' & K). unfold x_go in G. rewrite E in G. destruct (get_id (target w)) as [id| | |]; try discriminate. injection G as <-.
  apply (goal_step _ _ _ _ K). destruct (m_regs (view s t) id) as [r|]; [apply (end_read' _ t w r R' S)|apply (end_lock _ t w R' S)]; cbn; apply fupd_at.
Qed.

Definition over (t : nat) (k : bool * Z) (s : xst) : Prop :=
  exists s', goes_on s s' /\ x_at s' t = QDone /\ if fst k then In (t, snd k) (x_know s') else mapped s' (snd k) = false.
Lemma over_step t k s s1 : goes_on s s1 -> over t k s1 -> over t k s.
Proof. intros G (s' & K & E). exists s'. split; [exact (goes_trans _ _ _ G K)|exact E]. Qed.
Lemma over_back s t b : xreach true true s -> x_at s t = QBack b -> over t (false, b) s.
Proof.
  intros R E. destruct (drain s t) as (s1 & G1 & B1 & A1 & _). pose proof (goes_reach _ _ G1 R) as R1. apply (over_step _ _ _ _ G1).
  destruct (step_of s1 t R1) as (s' & G & _ & K). unfold x_go in G. rewrite A1, E in G. unfold waits in G. rewrite B1 in G. cbn in G. injection G as <-. eexists. split; [exact K|].
  split; [cbn; apply fupd_at|]. cbn. unfold mapped. cbn. apply not_true_is_false. intros H. apply existsb_exists in H as ([[y z] c] & H & Q). apply filter_In in H as (_ & H).
  rewrite Q in H. discriminate.
Qed.
Definition kind (w : work) : bool * Z := match w with WSet b _ => (true, b) | WUnset b _ => (false, b) | _ => (true, 0) end.
Lemma over_loop n : forall s t w, xreach true true s -> setter w -> x_at s t = QLoop w -> (forall sz c, In (snd (kind w), sz, c) (x_map s) -> snd (kind w) + sz - target w <= Z.of_nat n * MB2) -> over t (kind w) s.
Proof.
  assert (END : forall s t w sz c, xreach true true s -> setter w -> x_at s t = QLoop w -> In (snd (kind w), sz, c) (x_map s) -> target w = snd (kind w) + sz -> over t (kind w) s).
  { intros s t w sz c R S E M T. destruct (reach_inv s R) as (own & hand & I). pose proof (i_at _ _ _ I t) as A. rewrite E in A. destruct A as (_ & A).
    destruct (step_of s t R) as (s' & G & R' & K). unfold x_go in G. rewrite E in G. destruct w as [b a|b a|?|?]; try destruct S; cbn [x_loop kind fst snd target] in *;
      destruct A as (sz' & c' & M' & _ & _ & _ & _ & HD & _); destruct (map_one _ _ _ I _ _ _ _ _ M M') as (<- & <-); rewrite (mapped_in _ _ _ _ M), HD in G; cbn [negb fst] in G;
      rewrite (end_ok _ _ (i_map _ _ _ I _ _ _ M)) in G; replace (a <? b + sz) with false in G by lia; injection G as <-.
    - eexists. split; [exact K|]. split; [cbn; apply fupd_at|]. cbn. left. reflexivity.
    - apply (over_step _ _ _ _ K). apply over_back; [exact R'|cbn; apply fupd_at]. }
  induction n as [|n IH]; intros s t w R S E H.
  - destruct (reach_inv s R) as (own & hand & I). pose proof (i_at _ _ _ I t) as A. rewrite E in A. destruct A as (_ & A).
    destruct w as [b a|b a|?|?]; try destruct S; cbn [kind snd target] in *; destruct A as (sz & c & M & _ & _ & _ & BB & _); specialize (H sz c M);
      [refine (END s t (WSet b a) sz c R Logic.I E M _)|refine (END s t (WUnset b a) sz c R Logic.I E M _)]; cbn; lia.
  - destruct (reach_inv s R) as (own & hand & I). pose proof (i_at _ _ _ I t) as A. rewrite E in A. destruct A as (_ & A).
    assert (X : exists sz c, In (snd (kind w), sz, c) (x_map s) /\ target w mod MB2 = 0 /\ snd (kind w) <= target w <= snd (kind w) + sz /\ m_hdr (view s t) (snd (kind w)) = (sz, c)).
    { destruct w as [b a|b a|?|?]; try destruct S; cbn [kind snd target]; destruct A as (sz & c & M & _ & _ & AL & BB & HD & _); exists sz, c; auto. }
    destruct X as (sz & c & M & AL & BB & HD). destruct (Z.eq_dec (target w) (snd (kind w) + sz)) as [T|T]; [exact (END s t w sz c R S E M T)|].
    pose proof (i_map _ _ _ I _ _ _ M) as OK. destruct (next_blk _ _ _ OK AL ltac:(lia)) as (NX & AL' & LE).
    destruct (step_of s t R) as (s1 & G & R1 & K).
    assert (E1 : x_at s1 t = QGet w).
    { unfold x_go in G. rewrite E in G. destruct w as [b a|b a|?|?]; try destruct S; cbn [x_loop kind fst snd target] in *; rewrite (mapped_in _ _ _ _ M), HD in G; cbn [negb fst] in G;
        rewrite (end_ok _ _ OK) in G; replace (a <? b + sz) with true in G by lia; injection G as <-; cbn; apply fupd_at. }
    destruct (end_get s1 t w R1 S E1) as (s2 & K2 & E2). pose proof (goes_reach _ _ K2 R1) as R2. apply (over_step _ _ _ _ (goes_trans _ _ _ K K2)).
    assert (KW : kind (nextw w) = kind w) by (destruct w; try destruct S; reflexivity). rewrite <- KW.
    assert (TW : target (nextw w) = target w + MB2) by (rewrite <- NX; destruct w; try destruct S; reflexivity).
    apply (IH s2 t (nextw w) R2); [destruct w; try destruct S; exact Logic.I|exact E2|]. intros sz' c' M'. rewrite KW in M' |- *. rewrite TW.
    assert (D : sz' = sz).
    { assert (MM : forall s s', goes_on s s' -> forall y z d, In (y, z, d) (x_map s') -> In (y, z, d) (x_map s)).
      { clear. induction 1 as [|s a sa s' A E _ IH]; [auto|]. intros y z d M. specialize (IH _ _ _ M). clear M. destruct A as (t & [->|(i & ->)]); cbn [xstep] in E.
        - unfold x_go in E. destruct (x_at s t) as [| |? ? ?|w|w|w|w|w|w q|w q|w q|? e|? b|b]; try (injection E as <-; exact IH).
          + unfold x_loop in E. destruct w as [b a|b a|?|?]; try discriminate; (destruct (negb (mapped s b)); [discriminate|]); [destruct (a <? _)|]; injection E as <-; exact IH.
          + destruct (get_id (target w)); try discriminate. injection E as <-. exact IH.
          + destruct (x_lck s || waits true s t); injection E as <-; exact IH.
          + destruct (get_id (target w)); try discriminate. injection E as <-. exact IH.
          + destruct (get_id (target w)); try discriminate. injection E as <-. exact IH.
          + unfold x_read in E. destruct w; [destruct (_ =? 0); [|discriminate]| | |]; injection E as <-; exact IH.
          + destruct w; try discriminate; injection E as <-; exact IH.
          + destruct (negb (mapped s e)); [discriminate|]. injection E as <-. exact IH.
          + destruct (b =? 0); [injection E as <-; exact IH|]. destruct (negb (mapped s b)); [discriminate|]. injection E as <-. exact IH.
          + destruct (waits true s t); injection E as <-; [exact IH|]. cbn in IH. apply filter_In in IH as (IH & _). exact IH.
        - injection E as <-. unfold x_flush in IH. destruct (nth_error (x_buf s t) i); [|exact IH]. destruct (Nat.eqb i 0); exact IH. }
      pose proof (MM _ _ (goes_trans _ _ _ K K2) _ _ _ M') as M0. exact (proj1 (map_one _ _ _ I _ _ _ _ _ M0 M)). }
    subst sz'. specialize (H sz c M). lia.
Qed.
Lemma over_any s t w : xreach true true s -> setter w -> x_at s t = QLoop w -> over t (kind w) s.
Proof.
  intros R S E. destruct (reach_inv s R) as (own & hand & I). pose proof (i_at _ _ _ I t) as A. rewrite E in A. destruct A as (_ & A).
  assert (X : exists sz c, In (snd (kind w), sz, c) (x_map s)) by (destruct w as [b a|b a|?|?]; try destruct S; destruct A as (sz & c & M & _); exists sz, c; exact M).
  destruct X as (sz & c & M). apply (over_loop (Z.to_nat (snd (kind w) + sz - target w)) s t w R S E). intros sz' c' M'. destruct (map_one _ _ _ I _ _ _ _ _ M M') as (<- & <-).
  unfold MB2. lia.
Qed.
Lemma call_ends s t k : xreach true true s -> handles (x_at s t) = Some k -> over t k s.
Proof.
  intros R H.
  assert (GO : forall w, setter w -> kind w = k -> goal t w s -> over t k s).
  { intros w S <- (s1 & G & E). apply (over_step _ _ _ _ G). assert (KW : kind (nextw w) = kind w) by (destruct w; try destruct S; reflexivity). rewrite <- KW.
    apply over_any; [exact (goes_reach _ _ G R)|destruct w; try destruct S; exact Logic.I|exact E]. }
  assert (KS : forall w, match w with WSet b _ => Some (true, b) | WUnset b _ => Some (false, b) | _ => None end = Some k -> setter w /\ kind w = k).
  { intros [b a|b a|p|p] K; try discriminate; injection K as <-; split; exact Logic.I || reflexivity. }
  destruct (x_at s t) as [| |? ? ?|w|w|w|w|w|w q|w q|w q|? e|? b|b] eqn:E; cbn [handles] in H; try discriminate; try (destruct (KS w H) as (S & K)).
  - rewrite <- K. exact (over_any s t w R S E).
  - exact (GO w S K (end_get s t w R S E)).
  - exact (GO w S K (end_lock s t w R S E)).
  - exact (GO w S K (end_look s t w R S E)).
  - exact (GO w S K (end_map s t w R S E)).
  - exact (GO w S K (end_unlock s t w q R S E)).
  - exact (GO w S K (end_read' s t w q R S E)).
  - exact (GO w S K (end_write s t w q R E)).
  - injection H as <-. exact (over_back s t b R E).
Qed.
Lemma call_ends_reach s t on b : xreach true true s -> handles (x_at s t) = Some (on, b) ->
  exists s', goes_on s s' /\ xreach true true s' /\ x_at s' t = QDone /\ if on then In (t, b) (x_know s') else mapped s' b = false.
Proof. intros R H. destruct (call_ends s t (on, b) R H) as (s' & G & E & K). exists s'. split; [exact G|]. split; [exact (goes_reach _ _ G R)|]. split; [exact E|exact K]. Qed.
