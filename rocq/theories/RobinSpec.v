(** What the round robin should do. *)
From Verif Require Import Res RobinModel.
From Coq Require Import List Bool Arith.
Import ListNotations.

(** Executions: a list of threads, each doing one step in turn. *)
Fixpoint rruns (n : nat) (l : list nat) (s : rst) : res rst :=
  match l with [] => Ok s | t :: l => rbind (rstep n t s) (rruns n l) end.
Definition rreach (n : nat) (s : rst) : Prop := exists l, rruns n l rst0 = Ok s.
(** The call is between the lock and the unlock. *)
Definition rinside (p : rplace) : Prop := match p with RRead | RInc _ | RUnlock _ => True | _ => False end.
(** No call is in the initialisation nor between the lock and the unlock, and the first call is over. *)
Definition rquiet (s : rst) : Prop :=
  rcnt s <> None /\ forall t, match rat s t with RIdle | RTest | RLock | RDone _ => True | _ => False end.
(** The sequence c, c+1, ... modulo n. *)
Definition turns (n c k : nat) : list nat := map (fun i => (c + i) mod n) (seq 0 k).
(** How often node [i] was given. *)
Definition given (i : nat) (l : list nat) : nat := count_occ Nat.eq_dec l i.
