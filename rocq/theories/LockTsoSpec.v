(** Vocabulary: what the protected data should look like to the program. *)
From Verif Require Import LockModel LockTsoModel.
From Coq Require Import ZArith List Bool.
Import ListNotations.
Open Scope Z_scope.

Inductive mexec (fifo : bool) : mst -> list mact -> mst -> Prop :=
| mexec_nil : forall s, mexec fifo s [] s
| mexec_cons : forall s a s1 l s2, mstep fifo s a = Some s1 -> mexec fifo s1 l s2 -> mexec fifo s (a :: l) s2.
Definition mreach (fifo : bool) (d : Z -> Z) (s : mst) : Prop := exists l, mexec fifo (m0 d) l s.

(** The trace read from left to right with the current owner and one memory for all: the lock is obtained when free, refused when
    not, released by its owner; the owner alone touches the data, and every read gives the last value written.  [None]: the trace
    breaks one of these rules. *)
Fixpoint sections (d : Z -> Z) (o : option nat) (l : list mevent) : option (option nat * (Z -> Z)) :=
  match l with
  | [] => Some (o, d)
  | MAcq t :: r => match o with None => sections d (Some t) r | Some _ => None end
  | MRefused _ :: r => sections d o r
  | MRel t :: r => match o with Some u => if Nat.eqb u t then sections d None r else None | None => None end
  | MWr t a v :: r => match o with Some u => if Nat.eqb u t then sections (fun x => if x =? a then v else d x) o r else None | None => None end
  | MRd t a v :: r => match o with Some u => if Nat.eqb u t && (d a =? v) then sections d o r else None | None => None end
  end.
