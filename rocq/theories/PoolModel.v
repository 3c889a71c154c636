(** The life of persistent memory pools: creation with every answer of the system, use and destruction, sctk_alloc_pmem.c 25-117 and 119-214
    (model only, no proofs).

    Simplifications: malloc and free (29, 102, 107, 115) are those of the process, seen as the set of live descriptors; what is printed is left out;
    the bytes of the pools are in PmemModel.v; O_TMPFILE is defined (61). *)
From Verif Require Import Word Res PmemModel.
From Coq Require Import ZArith List Bool.
Import ListNotations.
Open Scope Z_scope.

(** What the process owns: the live descriptors (malloc, sctk_alloc_pmem.c 29) and their contents (sctk_alloc_pmem.h 62-68), the open files (open,
    182), the mapped pages by number (mmap, 80). *)
Record world := mkWo { wheap : list Z; wdesc : Z -> pdesc; wfd : list Z; wpage : Z -> bool }.
(** What [stat] tells about the path (sctk_alloc_pmem.c 132-135, 168): a character device, a directory, anything else; [KErr] when it fails. *)
Inductive kind := KChr | KDir | KOther | KErr.
(** The answers of the system to one creation (sctk_alloc_pmem.c 29, 124, 132, 150, 182, 194, 200, 80): malloc, access, stat, realpath, open,
    posix_fadvise, posix_fallocate, mmap. *)
Record answers := mkAn { a_mem : Z; a_access : bool; a_kind : kind; a_real : bool; a_fd : Z; a_adv : Z; a_all : Z; a_map : Z }.
(** sctk_alloc_pmem.h 55-60 [SCTK_PMEM_FILE_TYPE]. *)
Inductive ptype := TError | TDevdax | TRegular.

(** No code of its own in /repo: free(3) takes the descriptor from the live ones, close(2) the number from the open ones. *)
Definition drop (x : Z) (l : list Z) : list Z := filter (fun y => negb (y =? x)) l.
(** No code of its own in /repo: mmap(2), called at sctk_alloc_pmem.c 80: the pages from [b] on become mapped. *)
Definition map_pages (k b n : Z) (p : Z -> bool) : Z -> bool := fun x => if (b / 2 ^ k <=? x) && (x <? b / 2 ^ k + n / 2 ^ k) then true else p x.
(** No code of its own in /repo: munmap(2), called at sctk_alloc_pmem.c 113: refused when the address is not that of a page or the length is 0; else
    the length is rounded up to a page. *)
Definition unmap_pages (k b n : Z) (p : Z -> bool) : Z * (Z -> bool) :=
  if (b mod 2 ^ k =? 0) && (0 <? n)
  then (0, fun x => if (b / 2 ^ k <=? x) && (x <? b / 2 ^ k + (n + 2 ^ k - 1) / 2 ^ k) then false else p x)
  else (-1, p).

(** sctk_alloc_pmem.c 119-176 [get_file_type]; 127 and 154 return -1, that is TYPE_ERROR; 132 does not look at the answer of stat. *)
Definition file_type (a : answers) : res ptype :=
  if negb (a_access a) then Ok TError                                            (* 124-128 *)
  else match a_kind a with
       | KErr => UB                                                              (* 135: [st] was never written *)
       | KChr => Ok (if a_real a then TDevdax else TError)                       (* 150-163 *)
       | KDir => Ok TRegular                                                     (* 174 *)
       | KOther => Ok TError                                                     (* 168-172 *)
       end.
(** sctk_alloc_pmem.c 192-195 [declare_random_access]: posix_fadvise; EBADF (9) for a number that is not open. *)
Definition advise (fd : Z) (a : answers) : Z := if fd <? 0 then 9 else a_adv a.
(** sctk_alloc_pmem.c 198-201 [allocate_file_space]: posix_fallocate; EINVAL (22) for a length of 0 or negative. *)
Definition fallocate (fd n : Z) (a : answers) : Z := if fd <? 0 then 9 else if (n =? 0) || (2 ^ 63 <=? n) then 22 else a_all a.

(** sctk_alloc_pmem.c 63-93, the path being a directory; [d] is the new descriptor. *)
Definition on_directory (k : Z) (a : answers) (d sz : Z) (w : world) : res (Z * Z * world) :=
  let fd := if a_fd a <? 0 then -1 else a_fd a in                                (* 63, 178-189 *)
  let w := if fd <? 0 then w else mkWo (wheap w) (wdesc w) (fd :: wfd w) (wpage w) in
  if negb (advise fd a =? 0) then Ok (0, sz, w)                                  (* 66-70 *)
  else if negb (fallocate fd sz a =? 0) then Ok (0, sz, w)                       (* 73-77 *)
  else
    let base := a_map a in                                                       (* 80 *)
    let w := mkWo (wheap w) (wdesc w) (wfd w) (if (base =? MAP_FAILED) || (base =? 0) then wpage w else map_pages k base sz (wpage w)) in
    if base =? 0 then Ok (0, sz, w)                                              (* 81-85 *)
    else Ok (d, sz, mkWo (wheap w) (fun x => if x =? d then mkPd 0 sz base base else wdesc w x) (drop fd (wfd w)) (wpage w)).   (* 87-93 *)
(** sctk_alloc_pmem.c 25-109 [sctk_pmem_create] with pages of [2 ^ k] bytes: the answer (0 is NULL), the new value of [*size], the process. *)
Definition pool_create (k : Z) (a : answers) (size : Z) (w : world) : res (Z * Z * world) :=
  let d := a_mem a in
  if d =? 0 then UB                                                              (* 30: no test of the answer of malloc *)
  else
    let w := mkWo (d :: wheap w) (fun x => if x =? d then mkPd 0 0 0 0 else wdesc w x) (wfd w) (wpage w) in   (* 29-33 *)
    rbind (file_type a) (fun t =>                                                (* 41 *)
    match t with
    | TError => Ok (0, size, w)                                                  (* 51-54 *)
    | TRegular => rbind (roundup k size) (fun sz => on_directory k a d sz w)     (* 57-93 *)
    | TDevdax => rbind (roundup k size) (fun sz => Ok (0, sz, mkWo (drop d (wheap w)) (wdesc w) (wfd w) (wpage w)))   (* 57, 99-104 *)
    end).

(** sctk_alloc_pmem.c 111-117 [sctk_pmem_destroy]. *)
Definition pool_destroy (k d size : Z) (w : world) : res (Z * world) :=
  if negb (existsb (Z.eqb d) (wheap w)) then UB
  else let '(r, p) := unmap_pages k (pstart (wdesc w d)) size (wpage w) in       (* 113 *)
       Ok (r, mkWo (drop d (wheap w)) (wdesc w) (wfd w) p).                      (* 114-116 *)
(** sctk_alloc_pmem.c 204-214 [sctk_pmem_malloc] on a descriptor of the process. *)
Definition pool_malloc (d n : Z) (w : world) : res (Z * world) :=
  if negb (existsb (Z.eqb d) (wheap w)) then UB
  else let '(r, x) := pmalloc n (wdesc w d) in Ok (r, mkWo (wheap w) (fun y => if y =? d then x else wdesc w y) (wfd w) (wpage w)).
