(** Property C87, locks: the library in a child process made by fork.  [child s]: the locks as they were in the parent [s], nobody in a
    call; [process P s]: the states of a process of any generation, each fork being done by a thread outside the calls, when [P] holds;
    [alone s t]: no thread but [t] is in a call; [good w egg], [any w egg]: the calls, as in C75; [spared s]: the calls that only take
    locks free in [s]; [never_out s t]: thread [t] never gets out of its call. *)
From Verif Require Import OrderSpec OrderModel OrderProofs ForkSpec ForkLock.
From Coq Require Import List Bool Arith Lia.
Import ListNotations.

Definition calm (w : world) : Prop := map_fails w = false /\ libs_malloc w = false /\ flag_moves w = false.

(** If each fork is done while no other thread is in a call, then in every process, while a thread is in a call, some thread can go on. *)
Theorem C87_quiet_forks : forall w egg, calm w -> egg_ok egg -> forall s t, process lk lk_eqb (good w egg) (alone lk) s -> todo s t <> [] ->
  exists s', moves lk lk_eqb s s'.
Proof. exact (fun w egg K E s t => quiet_moves w egg (proj1 K) (proj2 (proj2 K)) (proj1 (proj2 K)) E s t). Qed.
Print Assumptions C87_quiet_forks.

(** And all calls can end, with all locks free. *)
Theorem C87_quiet_forks_end : forall w egg, calm w -> egg_ok egg -> forall s, process lk lk_eqb (good w egg) (alone lk) s ->
  exists s', moves_star lk lk_eqb s s' /\ all_out lk s'.
Proof. exact (fun w egg K E s => quiet_end w egg (proj1 K) (proj2 (proj2 K)) (proj1 (proj2 K)) E s). Qed.
Print Assumptions C87_quiet_forks_end.

(** A fork at any time: the calls of the child that only take locks free at the fork can go on and end, and leave the locks as they were. *)
Theorem C87_spared_calls : forall w egg, calm w -> egg_ok egg -> forall s s' t,
  goes_star lk lk_eqb (spared lk (good w egg) s) (child lk s) s' -> todo s' t <> [] -> exists s2, moves lk lk_eqb s' s2.
Proof. exact (fun w egg K E s s' t => spared_moves w egg (proj1 K) (proj2 (proj2 K)) (proj1 (proj2 K)) E s s' t). Qed.
Print Assumptions C87_spared_calls.

Theorem C87_spared_calls_end : forall w egg, calm w -> egg_ok egg -> forall s s',
  goes_star lk lk_eqb (spared lk (good w egg) s) (child lk s) s' ->
  exists s2, moves_star lk lk_eqb s' s2 /\ (forall t, todo s2 t = []) /\ forall l, owner s2 l = owner s l.
Proof. exact (fun w egg K E s s' => spared_end w egg (proj1 K) (proj2 (proj2 K)) (proj1 (proj2 K)) E s s'). Qed.
Print Assumptions C87_spared_calls_end.

(** The others do not: a call that still has to take a lock that was taken at the fork never ends, whatever the threads of the child do. *)
Theorem C87_taken_refuted : forall w egg s l s' t, owner s l <> None -> goes_star lk lk_eqb (any w egg) (child lk s) s' ->
  In (Take l) (todo s' t) -> never_out lk lk_eqb (any w egg) s' t.
Proof. exact child_waits. Qed.
Print Assumptions C87_taken_refuted.

(** Such forks happen, for each lock that malloc needs: those of the egg chain (first call of a thread), of the light source of the chain, of
    the regions.  One thread is in malloc, another forks, and a malloc of the child never returns. *)
Theorem C87_malloc_refuted : forall w egg c l s t u, egg_ok egg -> flag_moves w = false -> chn_ok c -> needs c l -> t <> u ->
  todo s t = [] -> todo s u = [] -> owner s l = None ->
  path (malloc w egg c) [Take l; Give l] /\
  exists s', goes_star lk lk_eqb (good w egg) s s' /\ todo s' t = [] /\ todo s' u = [Give l] /\
    forall v, never_out lk lk_eqb (any w egg) (calling lk (child lk s') v [Take l; Give l]) v.
Proof.
  exact (fun w egg c l s t u E F C N D T U O => conj (malloc_needs w egg c l E F N)
    match fork_stuck w egg c l s t u E F C N D T U O with
    | ex_intro _ s' (conj G (conj T' (conj U' (conj _ V)))) => ex_intro _ s' (conj G (conj T' (conj U' V))) end).
Qed.
Print Assumptions C87_malloc_refuted.

(** Thread 1 holds the lock of source 4 in malloc while thread 0 forks; in the child, thread 0 takes and holds the lock of the regions; the
    lock of source 4 stays taken.  And a process that comes from a fork at a quiet time, with a thread in a call. *)
Example C87_nontrivial : let w := mkW false false false in let egg := mkC 0 true true (Light 1) false in
  let d := mkC 3 false true (Light 4) false in
  let s := mkO (fun l => if lk_eqb l (LSrc 4) then Some 1 else None) (fun x => if Nat.eqb x 1 then [Give (LSrc 4)] else []) in
  calm w /\ egg_ok egg /\ chn_ok d /\ needs d (LSrc 4) /\ needs d LReg /\ needs d (LChain 0) /\
  (exists s1, goes_star lk lk_eqb (good w egg) o0 s1 /\ (forall l, owner s1 l = owner s l) /\ (forall x, todo s1 x = todo s x)) /\
  (exists s', goes_star lk lk_eqb (spared lk (good w egg) s) (child lk s) s' /\ todo s' 0 = [Give LReg] /\ owner s' LReg = Some 0 /\
     owner s' (LSrc 4) = Some 1) /\
  (exists s', process lk lk_eqb (good w egg) (alone lk) s' /\ todo s' 0 = [Give LReg] /\ owner s' LReg = Some 0).
Proof.
  cbv zeta. set (w := mkW false false false). set (egg := mkC 0 true true (Light 1) false). set (d := mkC 3 false true (Light 4) false).
  assert (EO : egg_ok egg) by (repeat split; right; eexists; reflexivity).
  assert (N4 : needs d (LSrc 4)) by (right; exists 4; split; [reflexivity|left; reflexivity]).
  assert (NR : needs d LReg) by (right; exists 4; split; [reflexivity|right; split; reflexivity]).
  assert (CK : chn_ok d) by (unfold chn_ok; cbn; lia).
  assert (G4 : good w egg [Take (LSrc 4); Give (LSrc 4)])
    by (exists (malloc w egg d); split; [apply gc_malloc; left; exact CK|exact (malloc_needs w egg d _ EO eq_refl N4)]).
  assert (GR : good w egg [Take LReg; Give LReg])
    by (exists (malloc w egg d); split; [apply gc_malloc; left; exact CK|exact (malloc_needs w egg d _ EO eq_refl NR)]).
  split; [repeat split|]. split; [exact EO|]. split; [exact CK|]. split; [exact N4|]. split; [exact NR|]. split; [left; reflexivity|].
  split; [|split].
  - eexists. split.
    + eapply gs_step; [apply (g_call lk lk_eqb _ o0 1 _ eq_refl G4)|].
      eapply gs_step; [apply g_move; eapply (m_take lk lk_eqb _ 1); reflexivity|]. apply gs_refl.
    + split; [intros l; reflexivity|]. intros x. cbn [todo]. unfold tdo. cbn [todo o0]. destruct (Nat.eqb x 1); reflexivity.
  - eexists. split.
    + eapply gs_step; [apply (g_call lk lk_eqb _ _ 0 [Take LReg; Give LReg]); [reflexivity|split; [exact GR|]]|].
      * intros l [X|[X|[]]]; [injection X as <-; reflexivity|discriminate X].
      * eapply gs_step; [apply g_move; eapply (m_take lk lk_eqb _ 0); reflexivity|]. apply gs_refl.
    + repeat split.
  - eexists. split.
    + eapply pr_go; [eapply pr_go; [eapply (pr_fork lk lk_eqb _ _ o0 0); [apply pr_0|reflexivity|intros u _; reflexivity]|]|].
      * apply (g_call lk lk_eqb _ _ 0 [Take LReg; Give LReg]); [reflexivity|exact GR].
      * apply g_move. eapply (m_take lk lk_eqb _ 0); reflexivity.
    + repeat split.
Qed.
