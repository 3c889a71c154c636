(** fork (a call of the program; /repo has no handler for it: pthread_atfork is not used).  The child has a copy of the memory, so of the
    locks and of the queues, and one thread: the one that called fork, which was outside the calls of the library.  The other threads are
    gone in the middle of what they did.  The child may create threads again.  Specification only. *)
From Verif Require Import OrderSpec MpscfModel MpscfSpec.
From Coq Require Import ZArith List Bool Arith.
Import ListNotations.

(** ** Locks *)
Section Locks.
Variable lk : Type.
Variable lk_eqb : lk -> lk -> bool.
Variable call : list (op lk) -> Prop.
(** The locks as they were; nobody is in a call. *)
Definition child (s : ost lk) : ost lk := mkO (owner s) (fun _ => []).
(** A call of thread [t] starts. *)
Definition calling (s : ost lk) (t : nat) (r : list (op lk)) : ost lk := mkO (owner s) (tdo lk s t r).
(** Processes, of any generation, that come from the first by forks for which [P] holds. *)
Inductive process (P : ost lk -> nat -> Prop) : ost lk -> Prop :=
| pr_0 : process P o0
| pr_go : forall s s', process P s -> goes lk lk_eqb call s s' -> process P s'
| pr_fork : forall s t, process P s -> todo s t = [] -> P s t -> process P (child s).
(** No other thread is in a call of the library. *)
Definition alone (s : ost lk) (t : nat) : Prop := forall u, u <> t -> todo s u = [].
(** The calls that only take locks free in [s]. *)
Definition spared (s : ost lk) (r : list (op lk)) : Prop := call r /\ forall l, In (Take l) r -> owner s l = None.
(** Whatever the threads do, the thread never gets out of its call. *)
Definition never_out (s : ost lk) (t : nat) : Prop := forall s', goes_star lk lk_eqb call s s' -> todo s' t <> [].
End Locks.

(** ** Queues of remote frees *)
(** Executions in which the threads of [gone] do nothing. *)
Definition without (gone : nat -> Prop) (l : list act) : Prop :=
  forall u, gone u -> ~ In (Go u) l /\ forall e v, ~ In (Start u e v) l.
Definition child_exec (gone : nat -> Prop) (s s' : qst) : Prop := exists l, exec s l s' /\ without gone l.
(** The same, in which the owner of the queue makes at least one step. *)
Definition child_exec_own (gone : nat -> Prop) (s s' : qst) : Prop := exists l, exec s l s' /\ without gone l /\ In Cons l.
