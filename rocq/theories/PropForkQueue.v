(** Property C87, queues of remote frees: a queue in a child process made by fork.  [gone]: the threads of the parent that the child does
    not have; [child_exec gone s s']: an execution from [s] in which they do nothing; [child_exec_own]: one in which the owner makes a step;
    [PLink e p]: a thread has swapped the tail and not yet linked its entry [e] behind [p] (0: as head). *)
From Verif Require Import MpscfModel MpscfSpec MpscfProofs MpscfProps ForkSpec ForkQueue.
From Coq Require Import ZArith List Bool Lia.
Import ListNotations.
Open Scope Z_scope.

(** If no thread that is gone was between swap and link, a wait of the owner ends with a step of a thread that is still there, *)
Theorem C87_queue_wait_ends : forall s (gone : nat -> Prop), reach s -> (forall u, gone u -> ~ in_flight s u) ->
  forall s', child_exec gone s s' -> stalled s' -> exists u s2, ~ gone u /\ step s' (Go u) = Some s2 /\ ~ stalled s2.
Proof. exact fork_wait_ends. Qed.
Print Assumptions C87_queue_wait_ends.

(** and when the threads that are there are done, the owner gets all that was published, before the fork or after it. *)
Theorem C87_queue_drain : forall s (gone : nat -> Prop), reach s -> (forall u, gone u -> ~ in_flight s u) ->
  forall s', child_exec gone s s' -> (forall u, ~ gone u -> prd s' u = PIdle) ->
  exists n s2, exec s' (repeat Cons n) s2 /\ cns s2 = CIdle /\ dels (tr s2) = pubs (tr s2) /\ pubs (tr s2) = pubs (tr s').
Proof. exact fork_drain. Qed.
Print Assumptions C87_queue_drain.

(** Else not, though no lock is involved.  A thread was about to link its entry behind another and the queue is not empty: once the owner has
    begun its next purge, which every malloc and free does, it never ends, and delivers nothing. *)
Theorem C87_queue_refuted : forall s (gone : nat -> Prop) u e p, reach s -> gone u -> prd s u = PLink e p -> p <> 0 -> cns s = CIdle -> qhd s <> 0 ->
  forall s', child_exec_own gone s s' -> cns s' <> CIdle /\ dels (tr s') = dels (tr s).
Proof. exact fork_waits. Qed.
Print Assumptions C87_queue_refuted.

(** A thread was about to store the head: the queue looks empty for ever, and nothing freed by other threads ever reaches the owner. *)
Theorem C87_queue_lost_refuted : forall s (gone : nat -> Prop) u e, reach s -> gone u -> prd s u = PLink e 0 -> cns s = CIdle ->
  forall s', child_exec gone s s' -> qhd s' = 0 /\ cns s' = CIdle /\ dels (tr s') = dels (tr s).
Proof. exact fork_hidden. Qed.
Print Assumptions C87_queue_lost_refuted.

(** Threads 1 and 2 free 100 and 200; thread 2 is gone before it links; in the child the owner purges and thread 3 frees 300.  Then the same with
    thread 1 gone before it stores the head.  Then with thread 2 gone before its swap: thread 3 is caught in its turn, the owner waits, and
    the wait ends; the owner gets 100 and 300. *)
Definition f_gap : list act := [Start 1 100 1001; Start 2 200 2001; Go 1; Go 1; Go 1; Go 1; Go 2; Go 2; Go 2; Go 1; Go 2].
Definition c_gap : list act := [Cons; Start 3 300 3001; Go 3; Go 3; Cons; Cons; Cons; Go 3; Go 3; Go 3; Cons; Cons].
Definition f_head : list act := [Start 1 100 1001; Go 1; Go 1; Go 1; Go 1].
Definition c_head : list act := [Start 3 300 3001; Go 3; Go 3; Cons; Go 3; Go 3; Go 3; Cons; Cons].
Definition f_fine : list act := [Start 1 100 1001; Start 2 200 2001; Go 1; Go 1; Go 1; Go 1; Go 2; Go 2; Go 2; Go 1].
Definition c_fine : list act := [Start 3 300 3001; Go 3; Go 3; Go 3; Go 3; Cons; Cons; Cons; Cons; Cons].
Definition of_parent (u : nat) : Prop := u = 1%nat \/ u = 2%nat.
Example C87_queue_nontrivial :
  (reach (at_end f_gap) /\ prd (at_end f_gap) 2%nat = PLink 200 100 /\ cns (at_end f_gap) = CIdle /\ qhd (at_end f_gap) = 100 /\
   child_exec_own of_parent (at_end f_gap) (at_end (f_gap ++ c_gap)) /\ cns (at_end (f_gap ++ c_gap)) = CWait 100 200 100) /\
  (reach (at_end f_head) /\ prd (at_end f_head) 1%nat = PLink 100 0 /\ cns (at_end f_head) = CIdle /\
   child_exec of_parent (at_end f_head) (at_end (f_head ++ c_head)) /\ pubs (tr (at_end (f_head ++ c_head))) = [(100, 1001); (300, 3001)]) /\
  (reach (at_end f_fine) /\ (forall u, of_parent u -> ~ in_flight (at_end f_fine) u) /\ prd (at_end f_fine) 2%nat = PSwap 200 2001 /\
   child_exec of_parent (at_end f_fine) (at_end (f_fine ++ c_fine)) /\ stalled (at_end (f_fine ++ c_fine)) /\
   child_exec of_parent (at_end f_fine) (at_end (f_fine ++ c_fine ++ [Go 3])) /\
   pubs (tr (at_end (f_fine ++ c_fine ++ [Go 3]))) = [(100, 1001); (300, 3001)]).
Proof.
  assert (W : forall l, forallb (fun a => match a with Go u | Start u _ _ => negb (Nat.eqb u 1 || Nat.eqb u 2) | _ => true end) l = true ->
    without of_parent l).
  { intros l H u G. rewrite forallb_forall in H. split; [|intros e v]; intros X; apply H in X; destruct G as [->| ->]; discriminate X. }
  assert (X : forall a b, (match play z0 a with Some s => match play s b with Some _ => true | None => false end | None => false end) = true ->
    exec (at_end a) b (at_end (a ++ b))).
  { intros a b H. unfold at_end. assert (Y : forall s, play s (a ++ b) = match play s a with Some s1 => play s1 b | None => None end).
    { clear H. induction a as [|c a IH]; intros s; cbn; [reflexivity|]. destruct (step s c); [apply IH|reflexivity]. }
    rewrite Y. destruct (play z0 a) as [s|]; [|discriminate H]. destruct (play s b) as [s2|] eqn:E; [|discriminate H].
    exact (play_exec _ _ _ E). }
  split; [|split].
  - split; [apply at_end_reach; vm_compute; reflexivity|]. split; [vm_compute; reflexivity|]. split; [vm_compute; reflexivity|].
    split; [vm_compute; reflexivity|]. split; [|vm_compute; reflexivity]. exists c_gap. split; [apply X; vm_compute; reflexivity|].
    split; [apply W; reflexivity|left; reflexivity].
  - split; [apply at_end_reach; vm_compute; reflexivity|]. split; [vm_compute; reflexivity|]. split; [vm_compute; reflexivity|].
    split; [|vm_compute; reflexivity]. exists c_head. split; [apply X; vm_compute; reflexivity|apply W; reflexivity].
  - split; [apply at_end_reach; vm_compute; reflexivity|]. split; [|split; [vm_compute; reflexivity|]].
    + intros u [->| ->] (e & p & H); vm_compute in H; discriminate H.
    + split; [exists c_fine; split; [apply X; vm_compute; reflexivity|apply W; reflexivity]|]. split.
      * exists 100, 300, 100, 3%nat, 300. split; [vm_compute; reflexivity|]. split; [discriminate|vm_compute; reflexivity].
      * split; [exists (c_fine ++ [Go 3]); split; [apply X; vm_compute; reflexivity|apply W; reflexivity]|vm_compute; reflexivity].
Qed.
