(** What the dump of a segment should print: one line per chunk, written from the chunks read in memory. *)
From Verif Require Import Word Res Mem SizeClassModel ChainModel ChainSpec DumpModel.
From Coq Require Import ZArith List Bool.
Import ListNotations.
Open Scope Z_scope.

(** The line of a chunk: its address, this address modulo 32, its size, "large", "free" (0) or "allocated" (1). *)
Definition line_of (x : Z * Z * bool) : line :=
  match x with (a, c, fr) => (a, a mod 32, c, 1, if fr then 0 else 1) end.
(** The chunks of the segment [r] that start after [a] and before [e]. *)
Definition pieces_in (m : mem) (r : Z * Z) (a e : Z) : list (Z * Z * bool) :=
  filter (fun x => (a <? fst (fst x)) && (fst (fst x) <? e)) (chunks m r).
