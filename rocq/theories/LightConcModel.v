(** Several threads on several light memory sources: sctk_alloc_light_mm_source.c 54-61 (keep), 145-158 (reg_in_cache), 273-305 (cleanup),
    360-426 (find_in_cache), 432-473 (request_memory), 479-508 (mmap_new_segment), 531-561 (free_memory).  Model only, no proofs.

    A step is one access to what the threads share: the cache and its size, the lock, the counter, mmap and munmap.  A segment is (address, size).
    Simplifications: the cache is a list instead of links in memory (LightModel.v has the links); the search of the cache is one step, made
    with the lock; memory is sequentially consistent; mmap succeeds (C33 treats its failure); sizes are not reduced modulo 2^64 (C57_size
    bounds them).  The NUMA binding is left out. *)
From Verif Require Import Res LightModel.
From Coq Require Import ZArith List Bool.
Import ListNotations.
Open Scope Z_scope.

Notation seg := (Z * Z)%type (only parsing).
(** light_mm_source.h 71-93: cache, size, counter, spinlock. *)
Record csrc := mkCs { cq : list (Z * Z); csz : Z; ccnt : Z; clk : option nat }.
(** Where a thread is; [j]: the source.  Request: before the lock (380), the search (383-412), the counter (413), the size (414), the unlock
    (418); before mmap (488), before the counter (504).  Free: before the test (546), the lock (149), the link (152-153), the size (154),
    the unlock (157); before munmap (556), before the counter (560).  Cleanup: before the lock (284), before the rest (287-296). *)
Inductive cplace :=
| PIdle
| PLock (j : nat) (n : Z) | PFind (j : nat) (n : Z) | PTook (j : nat) (s : Z * Z) | PDec (j : nat) (s : Z * Z) | PUnl (j : nat) (n : Z) (r : option (Z * Z))
| PMap (j : nat) (n : Z) | PCnt (j : nat) (s : Z * Z)
| PTest (j : nat) (s : Z * Z) | PFLock (j : nat) (s : Z * Z) | PFLink (j : nat) (s : Z * Z) | PFSize (j : nat) (s : Z * Z) | PFUnl (j : nat)
| PUnmap (j : nat) (s : Z * Z) | PFCnt (j : nat)
| PCLock (j : nat) | PCGo (j : nat).
(** [held]: segments in use by the chains, with the source that gave them.  [maps]: mappings obtained from the OS. (Ghost but for [srcs]; mmap and munmap: sctk_alloc_common.c 62-72, 96-99.) *)
Record lcst := mkLc { srcs : nat -> csrc; held : list (Z * Z * nat); maps : list (Z * Z); cat_ : nat -> cplace }.
(** sctk_alloc_light_mm_source.c 89-135: sources after their initialisation. *)
Definition lc0 : lcst := mkLc (fun _ => mkCs [] 0 0 None) [] [] (fun _ => PIdle).
(** A thread goes on (no code of its own in /repo: the program counter). *)
Definition place_of (s : lcst) (t : nat) (p : cplace) : nat -> cplace := fun x => if Nat.eqb x t then p else cat_ s x.
(** Store in a field of a source (sctk_alloc_light_mm_source.h 71-93). *)
Definition src_of (s : lcst) (j : nat) (c : csrc) : nat -> csrc := fun x => if Nat.eqb x j then c else srcs s x.
(** Equality of segments (no code of its own in /repo). *)
Definition seg_eqb (a b : Z * Z) : bool := (fst a =? fst b) && (snd a =? snd b).

(** 383-412: the first segment of that size, and the cache without it. *)
Fixpoint take (n : Z) (l : list (Z * Z)) : option ((Z * Z) * list (Z * Z)) :=
  match l with
  | [] => None
  | s :: l => if snd s =? n then Some (s, l) else match take n l with Some (r, l') => Some (r, s :: l') | None => None end
  end.
(** Ghost: the segment is given back (no code of its own in /repo). *)
Fixpoint drop_held (s : Z * Z) (l : list (Z * Z * nat)) : list (Z * Z * nat) :=
  match l with [] => [] | x :: l => if seg_eqb (fst x) s then l else x :: drop_held s l end.

(** A thread asks source [j] for [n] bytes, gives a segment to source [j], cleans source [j] up, or goes on ([a]: what mmap would return). (sctk_alloc_light_mm_source.c 432-473, 531-561, 273-305.) *)
Inductive cact := AReq (t j : nat) (n : Z) | AFree (t j : nat) (s : Z * Z) | AClean (t j : nat) | AGo (t : nat) (a : Z).
(** One of [cact]: the lines are those of [cplace]. *)
Definition lcstep (g : lcfg) (a : cact) (s : lcst) : res lcst :=
  match a with
  | AReq t j n =>                                                                          (* 453-464 *)
      match cat_ s t with
      | PIdle => Ok (mkLc (srcs s) (held s) (maps s) (place_of s t (if n <=? keep_max g then PLock j n else PMap j n)))
      | _ => Ok s
      end
  | AFree t j x =>
      match cat_ s t with
      | PIdle => Ok (mkLc (srcs s) (drop_held x (held s)) (maps s) (place_of s t (PTest j x)))
      | _ => Ok s
      end
  | AClean t j =>
      match cat_ s t with PIdle => Ok (mkLc (srcs s) (held s) (maps s) (place_of s t (PCLock j))) | _ => Ok s end
  | AGo t a =>
      match cat_ s t with
      | PIdle => Ok s
      | PLock j n =>
          let c := srcs s j in
          match clk c with Some _ => Ok s | None => Ok (mkLc (src_of s j (mkCs (cq c) (csz c) (ccnt c) (Some t))) (held s) (maps s) (place_of s t (PFind j n))) end
      | PFind j n =>
          let c := srcs s j in
          match take n (cq c) with
          | Some (x, l) => Ok (mkLc (src_of s j (mkCs l (csz c) (ccnt c) (clk c))) (held s) (maps s) (place_of s t (PTook j x)))
          | None => Ok (mkLc (srcs s) (held s) (maps s) (place_of s t (PUnl j n None)))
          end
      | PTook j x => let c := srcs s j in Ok (mkLc (src_of s j (mkCs (cq c) (csz c) (ccnt c + 1) (clk c))) (held s) (maps s) (place_of s t (PDec j x)))
      | PDec j x => let c := srcs s j in Ok (mkLc (src_of s j (mkCs (cq c) (csz c - snd x) (ccnt c) (clk c))) (held s) (maps s) (place_of s t (PUnl j (snd x) (Some x))))
      | PUnl j n r =>
          let c := srcs s j in
          let q := src_of s j (mkCs (cq c) (csz c) (ccnt c) None) in
          match r with
          | Some x => Ok (mkLc q ((x, j) :: held s) (maps s) (place_of s t PIdle))
          | None => Ok (mkLc q (held s) (maps s) (place_of s t (PMap j n)))
          end
      | PMap j n => Ok (mkLc (srcs s) (held s) ((a, n) :: maps s) (place_of s t (PCnt j (a, n))))
      | PCnt j x => let c := srcs s j in Ok (mkLc (src_of s j (mkCs (cq c) (csz c) (ccnt c + 1) (clk c))) ((x, j) :: held s) (maps s) (place_of s t PIdle))
      | PTest j x =>
          Ok (mkLc (srcs s) (held s) (maps s) (place_of s t (if (snd x <=? keep_max g) && (csz (srcs s j) <=? keep_mem g) then PFLock j x else PUnmap j x)))
      | PFLock j x =>
          let c := srcs s j in
          match clk c with Some _ => Ok s | None => Ok (mkLc (src_of s j (mkCs (cq c) (csz c) (ccnt c) (Some t))) (held s) (maps s) (place_of s t (PFLink j x))) end
      | PFLink j x => let c := srcs s j in Ok (mkLc (src_of s j (mkCs (x :: cq c) (csz c) (ccnt c) (clk c))) (held s) (maps s) (place_of s t (PFSize j x)))
      | PFSize j x => let c := srcs s j in Ok (mkLc (src_of s j (mkCs (cq c) (csz c + snd x) (ccnt c) (clk c))) (held s) (maps s) (place_of s t (PFUnl j)))
      | PFUnl j => let c := srcs s j in Ok (mkLc (src_of s j (mkCs (cq c) (csz c) (ccnt c) None)) (held s) (maps s) (place_of s t (PFCnt j)))
      | PUnmap j x =>
          if existsb (seg_eqb x) (maps s) then Ok (mkLc (srcs s) (held s) (filter (fun y => negb (seg_eqb x y)) (maps s)) (place_of s t (PFCnt j))) else UB
      | PFCnt j => let c := srcs s j in Ok (mkLc (src_of s j (mkCs (cq c) (csz c) (ccnt c - 1) (clk c))) (held s) (maps s) (place_of s t PIdle))
      | PCLock j =>
          let c := srcs s j in
          match clk c with Some _ => Ok s | None => Ok (mkLc (src_of s j (mkCs (cq c) (csz c) (ccnt c) (Some t))) (held s) (maps s) (place_of s t (PCGo j))) end
      | PCGo j =>                                                                          (* 287-304: the lock stays taken, the cache as it is *)
          let c := srcs s j in
          if ccnt c =? 0 then Ok (mkLc (srcs s) (held s) (filter (fun y => negb (existsb (seg_eqb y) (cq c))) (maps s)) (place_of s t PIdle)) else Abort
      end
  end.
