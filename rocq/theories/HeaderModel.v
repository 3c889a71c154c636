(** Chunk headers: the fields as the code reads and writes them, on Unix (bit fields) and on Windows (masks and
    shifts).  sctk_alloc_chunk.h:75-142, sctk_alloc_inlined.h:54-158.
    [m] is the memory, [a] the address of the header.  Simplification: little-endian machine, bit fields
    allocated from the least significant bit (System V x86-64, and MSVC). *)
From Verif Require Import Word Mem.
From Coq Require Import ZArith.
Open Scope Z_scope.

(** sctk_alloc_chunk.h:90-117 struct sctk_alloc_chunk_header_large, with sctk_alloc_chunk.h:75-83 for the last three. *)
Inductive field := FSize | FAddr | FPrev | FType | FState | FMagic.

(** Bit field of [w] bits at bit [o] of a byte: what the compiler generates for [unsigned char x : w]. (Reads of the bit fields of sctk_alloc_chunk.h 75-83.) *)
Definition bf_get (b o w : Z) : Z := Z.land (Z.shiftr b o) (Z.ones w).
(** Store in a bit field (sctk_alloc_chunk.h 75-83). *)
Definition bf_set (b o w v : Z) : Z := Z.lor (Z.land b (Z.lnot (Z.shiftl (Z.ones w) o))) (Z.shiftl (Z.land v (Z.ones w)) o).

(** Unix: sctk_alloc_inlined.h:54-116, [#else] branches; a 56-bit field followed by a byte occupies 7 bytes. *)
Definition ux_get (m : mem) (a : Z) (f : field) : Z :=
  match f with
  | FSize => ld m a 7
  | FAddr => ld m (a + 7) 1
  | FPrev => ld m (a + 8) 7
  | FType => bf_get (ld m (a + 15) 1) 0 2
  | FState => bf_get (ld m (a + 15) 1) 2 1
  | FMagic => bf_get (ld m (a + 15) 1) 3 5
  end.
(** sctk_alloc_inlined.h:118-158, [#else] branches *)
Definition ux_set (m : mem) (a : Z) (f : field) (v : Z) : mem :=
  match f with
  | FSize => sto m a 7 v
  | FAddr => sto m (a + 7) 1 v
  | FPrev => sto m (a + 8) 7 v
  | FType => sto m (a + 15) 1 (bf_set (ld m (a + 15) 1) 0 2 v)
  | FState => sto m (a + 15) 1 (bf_set (ld m (a + 15) 1) 2 1 v)
  | FMagic => sto m (a + 15) 1 (bf_set (ld m (a + 15) 1) 3 5 v)
  end.

(** [(1ULL << 56) - 1] *)
Definition MASK56 : Z := Z.shiftl 1 56 - 1.
(** Windows: sctk_alloc_inlined.h:54-116, [_WIN32] branches: a 64-bit load covers the field and the next byte. *)
Definition win_get (m : mem) (a : Z) (f : field) : Z :=
  match f with
  | FSize => Z.land (ld m a 8) MASK56
  | FPrev => Z.land (ld m (a + 8) 8) MASK56
  | _ => ux_get m a f
  end.
(** sctk_alloc_inlined.h:118-158, [_WIN32] branches: a 64-bit store of the value and of the next byte, read before. *)
Definition win_word (v b : Z) : Z := Z.lor (Z.land v MASK56) (Z.shiftl b 56).
(** The writes of Windows, sctk_alloc_inlined.h:118-158. *)
Definition win_set (m : mem) (a : Z) (f : field) (v : Z) : mem :=
  match f with
  | FSize => sto m a 8 (win_word v (ld m (a + 7) 1))
  | FPrev => sto m (a + 8) 8 (win_word v (ld m (a + 15) 1))
  | _ => ux_set m a f v
  end.

(** The two branches of the preprocessor, sctk_alloc_chunk.h:90-117. *)
Inductive layout := Unix | Windows.
(** Read of a field in either branch, sctk_alloc_inlined.h:54-116. *)
Definition h_get (L : layout) := match L with Unix => ux_get | Windows => win_get end.
(** Write of a field in either branch, sctk_alloc_inlined.h:118-158. *)
Definition h_set (L : layout) := match L with Unix => ux_set | Windows => win_set end.

(** Padded headers, sctk_alloc_chunk.h:119-142: 56 bits of padding, then the info byte; sctk_alloc_inlined.h:92-102, 146-158. *)
Inductive pfield := PPad | PType | PState | PMagic.
(** Reads, sctk_alloc_inlined.h:92-102. *)
Definition p_get (L : layout) (m : mem) (a : Z) (f : pfield) : Z :=
  match f with
  | PPad => match L with Unix => ld m a 7 | Windows => Z.land (ld m a 8) MASK56 end
  | PType => bf_get (ld m (a + 7) 1) 0 2
  | PState => bf_get (ld m (a + 7) 1) 2 1
  | PMagic => bf_get (ld m (a + 7) 1) 3 5
  end.
(** Writes, sctk_alloc_inlined.h:146-158. *)
Definition p_set (L : layout) (m : mem) (a : Z) (f : pfield) (v : Z) : mem :=
  match f with
  | PPad => match L with Unix => sto m a 7 v | Windows => sto m a 8 (win_word v (ld m (a + 7) 1)) end
  | PType => sto m (a + 7) 1 (bf_set (ld m (a + 7) 1) 0 2 v)
  | PState => sto m (a + 7) 1 (bf_set (ld m (a + 7) 1) 2 1 v)
  | PMagic => sto m (a + 7) 1 (bf_set (ld m (a + 7) 1) 3 5 v)
  end.
