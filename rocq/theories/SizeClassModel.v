(** Size classes of the free lists (model only, no proofs). *)
From Verif Require Import Word Res.
From Coq Require Import ZArith List Bool.
Import ListNotations.
Open Scope Z_scope.

(** sctk_alloc_common.h:86 *)
Definition MACRO_BLOC : Z := 2097152.

(** sctk_alloc_common.h:88 *)
Definition NB_FREE_LIST : Z := 48.

(** sctk_allocator.c:87-93, table [SCTK_ALLOC_FREE_SIZES]. *)
Definition FREE_SIZES : list Z :=
  [   32;    64;   96;  128;  160;   192;   224;   256;    288;    320;
     352;   384;  416;  448;  480;   512;   544;   576;    608;    640;
     672;   704;  736;  768;  800;   832;   864;   896;    928;    960;
     992;  1024; 2048; 4096; 8192; 16384; 32768; 65536; 131072; 262144;
   524288; 1048576; MACRO_BLOC; -1; -1; -1; -1; -1 ].

(** sctk_allocator.c:95-105, table [SCTK_ALLOC_MMS_FREE_SIZES]. Two commas are missing at line ends in
    the source, so the initialisers [-1 -1] denote the single value -2 at indices 20 and 43. *)
Definition MMS_FREE_SIZES : list Z :=
  [ 1 * MACRO_BLOC; 2 * MACRO_BLOC; 4 * MACRO_BLOC; 8 * MACRO_BLOC; 16 * MACRO_BLOC;
    32 * MACRO_BLOC; 64 * MACRO_BLOC; 128 * MACRO_BLOC; 256 * MACRO_BLOC; 512 * MACRO_BLOC;
    1024 * MACRO_BLOC; 2048 * MACRO_BLOC; 4096 * MACRO_BLOC; 8192 * MACRO_BLOC;
    16384 * MACRO_BLOC; 32768 * MACRO_BLOC; 65536 * MACRO_BLOC; 131072 * MACRO_BLOC;
    262144 * MACRO_BLOC; 524288 * MACRO_BLOC; -1 + -1;
    -1; -1; -1; -1; -1; -1; -1; -1; -1; -1; -1; -1; -1; -1; -1; -1; -1; -1; -1; -1; -1; -1; -1 + -1;
    -1; -1; -1; -1 ].

(** Array access [T[i]]; outside the 48 entries it is undefined behaviour. *)
Definition tab (T : list Z) (i : Z) : res Z :=
  if (0 <=? i) && (i <? NB_FREE_LIST) then Ok (nth (Z.to_nat i) T 0) else UB.

(** The same access for an index known to be valid. (No code of its own in /repo: array access.) *)
Definition tabv (T : list Z) (i : Z) : Z := nth (Z.to_nat i) T 0.

(** sctk_allocator.c:183-195 [sctk_alloc_calc_chunk_size]: adds the 16 byte header (wrapping). *)
Definition calc_chunk_size (n : Z) : Z :=
  let s := add64 n 16 in if s <=? 32 then 32 else s.

(** sctk_allocator.c:204-255 [sctk_alloc_thread_pool_init], the computation of [nb_free_lists]:
    last index whose size is not -1, rounded up to an even number (at least +1). *)
Fixpoint last_not_minus1 (T : list Z) (i acc : Z) : Z :=
  match T with
  | [] => acc
  | x :: T' => last_not_minus1 T' (i + 1) (if x =? -1 then acc else i)
  end.
(** sctk_allocator.c:204-255. *)
Definition nb_free_lists (T : list Z) : Z :=
  let n := last_not_minus1 T 0 0 in if n mod 2 =? 0 then n + 2 else n + 1.

(** sctk_allocator.c:262-279 [sctk_alloc_optimized_log2_size_t] ([bsr], 0 for 0). *)
Definition log2_size (v : Z) : Z := Z.log2 v.

(** sctk_allocator.c:290-306 [sctk_alloc_reverse_analytic_free_size]; [size] is unsigned, the result
    is an [int] (for [size < 32] the C expression gives -1). *)
Definition reverse_analytic (size : Z) : Z :=
  if size <=? 1024 then size / 32 - 1
  else if MACRO_BLOC <? size then 43
  else 1024 / 32 + log2_size (size / 1024) - 1.

(** sctk_allocator.c:367-393 [sctk_alloc_get_free_list_fast]; returns the index of the list.
    The comparison is between signed values. *)
Definition get_free_list_fast (size : Z) : res Z :=
  let pos := reverse_analytic size in
  rbind (tab FREE_SIZES pos) (fun c => Ok (if c <? s64 size then pos + 1 else pos)).

(** sctk_allocator.c:317-356 [sctk_alloc_get_free_list_slow], the search loop. [base] is
    [ptr - alloc_free_sizes], [seg] is [seg_size]; [size] is signed. *)
Fixpoint slow_loop (fuel : nat) (T : list Z) (size base seg i : Z) : res Z :=
  match fuel with
  | O => OutOfFuel
  | S fuel' =>
      rbind (tab T (base + i - 1)) (fun lo =>
      if size <=? lo then
        (* first half of the || is true: the body runs *)
        rbind (tab T (base + i)) (fun hi =>
        if hi <? size then slow_loop fuel' T size (base + i) (seg - i) ((seg - i) / 2)
        else slow_loop fuel' T size base i (i / 2))
      else
        rbind (tab T (base + i)) (fun hi =>
        if hi <? size then slow_loop fuel' T size (base + i) (seg - i) ((seg - i) / 2)
        else Ok (base + i)))
  end.

(** sctk_allocator.c:317-356 [sctk_alloc_get_free_list_slow]. *)
Definition get_free_list_slow (fuel : nat) (T : list Z) (size : Z) : res Z :=
  let seg := nb_free_lists T in
  rbind (tab T 0) (fun t0 =>
  if s64 size <=? t0 then Ok 0
  else slow_loop fuel T (s64 size) 0 seg (seg / 2)).

(** sctk_allocator.c:484-490 in [sctk_alloc_free_list_insert]: list where a free chunk of [size] bytes
    is filed. *)
Definition insert_class (size : Z) : res Z :=
  rbind (get_free_list_fast size) (fun i =>
  rbind (tab FREE_SIZES i) (fun c =>
  Ok (if negb (i =? 0) && negb (c =? -1) && negb (c =? size) then i - 1 else i))).
