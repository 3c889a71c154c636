(** The default memory source, sctk_allocator.c 1827-2040 (model only, no proofs).  The free lists of its pool are kept as sequences of
    (address, size) instead of links in memory; mmap succeeds.  The lock is left out. *)
From Verif Require Import Word Res SizeClassModel.
From Coq Require Import ZArith List Bool.
Import ListNotations.
Open Scope Z_scope.

(** sctk_alloc_mmsrc_default.h 41-48.  [dlists i]: content of free list [i], first element first. *)
Record dsrc := mkD { dbase : Z; dsize : Z; dlists : Z -> list (Z * Z) }.

(** 473-530 [sctk_alloc_free_list_insert] on the pool of the source (table SCTK_ALLOC_MMS_FREE_SIZES), at the end of the list. *)
Definition dinsert (fuel : nat) (a sz : Z) (f : Z -> list (Z * Z)) : res (Z -> list (Z * Z)) :=
  rbind (get_free_list_slow fuel MMS_FREE_SIZES sz) (fun i =>                    (* 486-487 *)
  rbind (tab MMS_FREE_SIZES i) (fun cl =>                                        (* 489 *)
  let i := if negb (i =? 0) && negb (cl =? -1) && negb (cl =? sz) then i - 1 else i in
  Ok (fun j => if j =? i then f j ++ [(a, sz)] else f j))).

(** 1921-1927 in [sctk_alloc_mm_source_default_init]: the loop over the regions of the heap; [n] counts the headers set up. *)
Fixpoint region_loop (fuel : nat) (cur stop n : Z) : res Z :=
  match fuel with
  | O => OutOfFuel
  | S fuel => if cur <? stop then region_loop fuel (add64 cur 1099511627776) stop (n + 1) else Ok n
  end.
(** 1836-1884 [sctk_alloc_mm_source_insert_segment]: the whole heap less one page becomes a free chunk. *)
Definition insert_segment (fuel : nat) (base size : Z) : res dsrc :=
  if negb (base mod MACRO_BLOC =? 0) || negb (size mod MACRO_BLOC =? 0) then Abort   (* 1845-1851 *)
  else if negb (base / 1099511627776 =? (base + size - 1) / 1099511627776) then Abort (* 1852-1854 *)
  else rbind (dinsert fuel base (sub64 size 4096) (fun _ => [])) (fun f => Ok (mkD base size f)).
(** 1909-1937 [sctk_alloc_mm_source_default_init]. *)
Definition def_init (fuel : nat) (base size : Z) : res dsrc :=
  if negb (base mod MACRO_BLOC =? 0) || negb (size mod MACRO_BLOC =? 0) then Abort
  else rbind (region_loop fuel base (add64 base size) 0) (fun _ => insert_segment fuel base size).

(** 571-600 [sctk_alloc_find_adapted_free_chunk]: first chunk of the list that is large enough. *)
Fixpoint dadapted (l : list (Z * Z)) (size : Z) : option (Z * Z) :=
  match l with [] => None | (a, sz) :: l => if size <=? sz then Some (a, sz) else dadapted l size end.
(** 665-690 [sctk_alloc_find_first_free_non_empty_list]: [n] lists from [i] on. *)
Fixpoint dnonempty (n : nat) (i : Z) (f : Z -> list (Z * Z)) : option Z :=
  match n with O => None | S n => match f i with [] => dnonempty n (i + 1) f | _ => Some i end end.
(** 701-738 [sctk_alloc_find_free_chunk]; the removal from the list is left out, the result says which chunk is taken. *)
Definition dfind (fuel : nat) (size : Z) (f : Z -> list (Z * Z)) : res (option (Z * Z)) :=
  let size := calc_chunk_size size in
  rbind (get_free_list_slow fuel MMS_FREE_SIZES size) (fun i =>
  let r := match dnonempty (Z.to_nat (nb_free_lists MMS_FREE_SIZES - i)) i f with Some j => dadapted (f j) size | None => None end in
  Ok (match r with None => if i =? 0 then None else dadapted (f (i - 1)) size | _ => r end)).
(** 1952-2037 [sctk_alloc_mm_source_default_request_memory], up to the choice of the free chunk (1975-1985): None is the out of memory
    answer. *)
Definition def_request (fuel : nat) (n : Z) (s : dsrc) : res (option (Z * Z)) :=
  if negb (n mod MACRO_BLOC =? 0) then Abort else dfind fuel (sub64 n 16) (dlists s).
