(** Vocabulary of the spinlock property. *)
From Verif Require Import LockModel.
From Coq Require Import ZArith List Bool.
Import ListNotations.
Open Scope Z_scope.

Inductive lexec : lst -> list lact -> lst -> Prop :=
| lexec_nil : forall s, lexec s [] s
| lexec_cons : forall s a s1 l s2, lstep s a = Some s1 -> lexec s1 l s2 -> lexec s (a :: l) s2.
Definition lreach (s : lst) : Prop := exists l, lexec l0 l s.

(** The trace read from left to right with the current owner: acquisitions only when free, releases only by the owner,
    refusals only when owned. [Some o]: the trace is correct and [o] owns the lock at the end. *)
Fixpoint owner (o : option nat) (l : list levent) : option (option nat) :=
  match l with
  | [] => Some o
  | EAcq t :: r => match o with None => owner (Some t) r | Some _ => None end
  | ERefused _ :: r => match o with None => None | Some _ => owner o r end
  | ERel t :: r => match o with Some u => if Nat.eqb u t then owner None r else None | None => None end
  end.

(** In [lock], waiting. *)
Definition waiting (s : lst) (t : nat) : Prop := lp s t = LSwap \/ lp s t = LSpin.
