(** Locks taken and given back by any number of threads: what "nobody waits for ever" means, independently of the code.
    A thread in a call has a list of lock operations left to do; a lock is free or was taken by a thread. *)
From Coq Require Import List Bool Arith.
Import ListNotations.

Section Machine.
(** The locks, and the lists of operations of the calls that a thread may do. *)
Variable lk : Type.
Variable lk_eqb : lk -> lk -> bool.
Inductive op := Take (l : lk) | Give (l : lk).
Variable call : list op -> Prop.

(** Who took each lock; what is left of the call of each thread (nothing: outside the calls). *)
Record ost := mkO { owner : lk -> option nat; todo : nat -> list op }.
Definition o0 : ost := mkO (fun _ => None) (fun _ => []).
Definition own (s : ost) (l : lk) (v : option nat) (x : lk) : option nat := if lk_eqb x l then v else owner s x.
Definition tdo (s : ost) (t : nat) (r : list op) (x : nat) : list op := if Nat.eqb x t then r else todo s x.

(** A thread in a call goes on: it takes a lock only when it is free; to give back a lock needs nothing (the code does not
    check who took it). *)
Inductive moves : ost -> ost -> Prop :=
| m_take : forall s t l r, todo s t = Take l :: r -> owner s l = None -> moves s (mkO (own s l (Some t)) (tdo s t r))
| m_give : forall s t l r, todo s t = Give l :: r -> moves s (mkO (own s l None) (tdo s t r)).
Inductive moves_star : ost -> ost -> Prop :=
| ms_refl : forall s, moves_star s s
| ms_step : forall s s1 s2, moves s s1 -> moves_star s1 s2 -> moves_star s s2.

(** Any thread outside the calls may start one. *)
Inductive goes : ost -> ost -> Prop :=
| g_move : forall s s', moves s s' -> goes s s'
| g_call : forall s t r, todo s t = [] -> call r -> goes s (mkO (owner s) (tdo s t r)).
Inductive goes_star : ost -> ost -> Prop :=
| gs_refl : forall s, goes_star s s
| gs_step : forall s s1 s2, goes s s1 -> goes_star s1 s2 -> goes_star s s2.

(** Nobody is in a call and all locks are free. *)
Definition all_out (s : ost) : Prop := (forall t, todo s t = []) /\ (forall l, owner s l = None).
(** Whatever the threads do, the lock is never free again. *)
Definition lost (s : ost) (l : lk) : Prop := forall s', goes_star s s' -> owner s' l <> None.
(** Whatever the threads do, the thread never finishes its call. *)
Definition stuck (s : ost) (t : nat) : Prop := forall s', goes_star s s' -> todo s' t = todo s t /\ todo s t <> [].
End Machine.

Arguments Take {lk}. Arguments Give {lk}. Arguments owner {lk}. Arguments todo {lk}. Arguments mkO {lk}. Arguments o0 {lk}.
