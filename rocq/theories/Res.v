(** Outcomes of a modelled C function. *)
(** [Ok]: normal return; [UB]: undefined behaviour (access outside the memory the code may touch);
    [Abort]: a failed [assume_m]/[assume]/[sctk_fatal] stops the program (sctk_alloc_debug.h);
    [OutOfFuel]: the fuel of a loop was exhausted (never a C behaviour; theorems exclude it). *)
Inductive res (A : Type) : Type :=
| Ok (a : A)
| UB
| Abort
| OutOfFuel.
Arguments Ok {A} a.
Arguments UB {A}.
Arguments Abort {A}.
Arguments OutOfFuel {A}.

Definition rbind {A B : Type} (x : res A) (f : A -> res B) : res B :=
  match x with
  | Ok a => f a
  | UB => UB
  | Abort => Abort
  | OutOfFuel => OutOfFuel
  end.
