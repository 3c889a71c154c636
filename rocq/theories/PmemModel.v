(** The persistent memory pool, sctk_alloc_pmem.c (model only, no proofs). *)
From Verif Require Import Word Res.
From Coq Require Import ZArith List Bool.
Import ListNotations.
Open Scope Z_scope.

(** sctk_alloc_pmem.h 62-68 [sctk_pmem_desc_t]. *)
Record pdesc := mkPd { pcur : Z; pmax : Z; pptr : Z; pstart : Z }.

(** The conversion [(float)x] of a 64-bit unsigned [x]: 24 significant bits, to nearest, ties to even. *)
Definition f32 (x : Z) : Z :=
  let e := Z.log2 x - 23 in
  if e <=? 0 then x
  else let q := x / 2 ^ e in let r := x mod 2 ^ e in let h := 2 ^ (e - 1) in
       (if (h <? r) || ((r =? h) && Z.odd q) then q + 1 else q) * 2 ^ e.

(** sctk_alloc_pmem.h:49 [SCTK_ROUNDUP(x,y)], that is [ceil((float)x/y)*y], for a page size [2 ^ k]: the division and the
    product by a power of two are exact, and so is the conversion back to [size_t] when the value fits (else undefined). *)
Definition roundup (k x : Z) : res Z :=
  let v := (f32 x + 2 ^ k - 1) / 2 ^ k * 2 ^ k in if v <? W64 then Ok v else UB.

(** sctk_alloc_pmem.c 25-109 [sctk_pmem_create] on a directory, the file operations succeeding; [base] is what mmap returns, 2^64-1
    being MAP_FAILED.  Line 81 compares it with NULL.  The result is the pool and the new value of [*size]. *)
Definition MAP_FAILED : Z := 18446744073709551615.
Definition create (k size base : Z) : res (option pdesc * Z) :=
  rbind (roundup k size) (fun sz =>                                              (* 57 *)
  Ok (if base =? 0 then None else Some (mkPd 0 sz base base), sz)).              (* 80-93 *)

(** sctk_alloc_pmem.c 204-214 [sctk_pmem_malloc]; 0 is NULL. *)
Definition pmalloc (n : Z) (d : pdesc) : Z * pdesc :=
  if add64 n (pcur d) <=? pmax d                                                 (* 207 *)
  then (pptr d, mkPd (add64 (pcur d) n) (pmax d) (add64 (pptr d) n) (pstart d))  (* 209-211 *)
  else (0, d).

(** sctk_alloc_pmem.c 216-219 [sctk_pmem_free]: a memset. *)
Definition pfree (p n : Z) (m : Z -> Z) : Z -> Z := fun a => if (p <=? a) && (a <? p + n) then 0 else m a.
