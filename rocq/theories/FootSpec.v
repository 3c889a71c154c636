(** Vocabulary of C66: the memory that a list of blocks accounts for. *)
From Verif Require Import Word Res Mem ChainModel ChainSpec.
From Coq Require Import ZArith List Bool Permutation.
Import ListNotations.
Open Scope Z_scope.

(** An allocated piece of [c] bytes accounts for 2 MB, or for [c] bytes and the 48 bytes of headers of a segment of its own. *)
Definition weight (x : Z * Z) : Z := Z.max 2097152 (snd x + 48).
Definition weights (l : list (Z * Z)) : Z := fold_right Z.add 0 (map weight l).
(** The same for blocks, from the headers in memory. *)
Definition footprint (m : mem) (l : list blk) : Z := weights (map (fun b => occ m (bp b)) l).
(** [lk]: the allocated pieces of the segments [r] that belong to none of the blocks [l]. *)
Definition lost (m : mem) (r : list (Z * Z)) (l : list blk) (lk : list (Z * Z)) : Prop :=
  Permutation (flat_map (occ_in m) r) (map (fun b => occ m (bp b)) l ++ lk).
(** Segments and blocks of the chains of the threads (chain 0 is the first chain, which has no memory source). *)
Definition thread_segs (O : list obs) : list (Z * Z) := flat_map segs (tl O).
Definition thread_blocks (O : list obs) : list blk := flat_map blocks (tl O).
