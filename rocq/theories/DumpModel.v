(** sctk_alloc_debug_dump_segment: the function that prints the chunks of a segment. *)
From Verif Require Import Word Res Mem SizeClassModel ChainModel.
From Coq Require Import ZArith List Bool.
Import ListNotations.
Open Scope Z_scope.

(** One printed line (sctk_alloc_debug.c:179-180): address, address modulo 32, size, index in the table of type names, index
    in the table of state names.  The text itself (sctk_alloc_fprintf, 154-163) is not modelled. *)
Definition line : Type := Z * Z * Z * Z * Z.
(** sctk_alloc_debug.c:44-45: both tables have two entries; reading past them is undefined. *)
Definition N_NAMES : Z := 2.

(** sctk_alloc_debug.c:179-180, the arguments of one line. *)
Definition dump_line (v : Z) : M line :=
  p <- get_ptr v ;;
  q <- get_ptr v ;;
  z <- vsize v ;;
  t <- get_type v ;;
  if N_NAMES <=? t then ub
  else
    x <- get_state v ;;
    if N_NAMES <=? x then ub else ret (p, q mod 32, z, t, x).

(** sctk_alloc_debug.c:176-181, the loop; [fuel] bounds the number of tests of the condition. *)
Fixpoint dump_loop (fuel : nat) (v e : Z) : M (list line) :=
  match fuel with
  | O => nofuel
  | S f =>
      z <- vsize v ;;
      if add64 (large_of v) z <? e then
        w <- next_chunk v ;;
        x <- dump_line w ;;
        r <- dump_loop f w e ;;
        ret (x :: r)
      else ret []
  end.

(** sctk_alloc_debug.c:166-184 (the first and last lines, always printed, are left out; SZ_LARGE =
    sizeof(struct sctk_alloc_chunk_header_large)). *)
Definition dump_segment (fuel : nat) (b e : Z) : M (list line) :=
  v <- get_chunk (add64 b SZ_LARGE) ;;
  dump_loop fuel v e.
