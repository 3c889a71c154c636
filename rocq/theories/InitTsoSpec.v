(** What the start-up should guarantee with store buffers; places and lists of pieces of work as in InitSpec.v. *)
From Verif Require Import Res InitModel InitSpec InitTsoModel.
From Coq Require Import List Bool Arith.
Import ListNotations.

Definition tact_ok (m : machine) (a : tact) : Prop :=
  match a with TGo _ o r => (forall i, o = Some i -> i < nodes m) /\ (nodes m = 0 \/ r < nodes m) | _ => True end.
Inductive treach (fifo : bool) (m : machine) : tst -> Prop :=
| treach_0 : treach fifo m t0
| treach_s s a s' : treach fifo m s -> tact_ok m a -> tstep fifo m a s = Ok s' -> treach fifo m s'.
Inductive truns (fifo : bool) (m : machine) : tst -> list tact -> tst -> Prop :=
| truns_0 s : truns fifo m s [] s
| truns_s s a s1 l s2 : tact_ok m a -> tstep fifo m a s = Ok s1 -> truns fifo m s1 l s2 -> truns fifo m s (a :: l) s2.
(** Thread [t] sees the result of [d]: in memory or in its own buffer. *)
Definition sees (s : tst) (t : nat) (d : doing) : Prop := In d (t_log s) \/ In (WDo d) (t_buf s t).
