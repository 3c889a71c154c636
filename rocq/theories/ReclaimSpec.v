(** Vocabulary of C53 and C54: which calls empty the queue of the caller's chain, pieces of memory that are lost. *)
From Verif Require Import Word Res Mem ChainModel ChainSpec PosixModel PosixSpec.
From Coq Require Import ZArith List Bool Lia.
Import ListNotations.
Open Scope Z_scope.

(** Calls of thread [t], whose chain is [i], that take back what other threads freed: all but realloc of a block of the same chain or of a
    chain that is shared, and the calls that posix_memalign and memalign refuse for their alignment. *)
Definition empties (y : sys) (O : list obs) (c : pop) (t : Z) (i : nat) : Prop :=
  match c with
  | PMalloc t' _ _ | PCalloc t' _ _ _ | PFree t' _ | PExit t' | PValloc t' _ _ => t' = t
  | PMemalign t' d _ _ => t' = t /\ is_pow2 d = true
  | PPosixMemalign t' d _ _ => t' = t /\ (d mod 8 = 0 \/ is_pow2 d = false)
  | PRealloc t' p n _ => t' = t /\ (p = 0 \/ n = 0 \/ exists j k b, holds y O j b /\ bp b = p /\ j <> i /\ j <> 0%nat /\ chain y j = Some k /\ kdes k = false)
  | PUse _ _ | PWrite _ _ => False
  end.
(** A segment has an allocated piece of 1 MB or 1 MB + 16 bytes (the sizes for which free does nothing, C23). *)
Definition leaked (y : sys) (r : Z * Z) : Prop := exists w c, In (w, c) (occ_in (ymem y) r) /\ 1048576 <= c <= 1048576 + 16.
