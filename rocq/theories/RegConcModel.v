(** The registry of segments with several threads (model only, no proofs).  RegionModel.v describes the calls one at a time; here each access to
    the table of regions, to an entry, to the lock and to the header of a segment is one step.

    Simplifications: memory is sequentially consistent; the spin lock is free or taken; [memset] of the table (2482) is one step, and so is mmap
    with the store that follows (2226-2232).  [once]: the compiler reads an entry once in a lookup; else each [entry->macro_bloc] of the source is
    an access of its own. *)
From Verif Require Import Word Res RegionModel.
From Coq Require Import ZArith List Bool.
Import ListNotations.
Open Scope Z_scope.

(** What a call is doing: registering or unregistering segment [b], at address [a] of the loop; looking for [p], in its own slot or the one before. (sctk_allocator.c 2281-2298, 2307-2339, 2391-2416.) *)
Inductive work := WSet (b a : Z) | WUnset (b a : Z) | WFind (p : Z) | WBack (p : Z).
(** The address given to [sctk_alloc_region_get_entry]. (sctk_allocator.c 2263-2275; called at 2293, 2332, 2398, 2403.) *)
Definition target (w : work) : Z := match w with WSet _ a => a | WUnset _ a => a | WFind p => p | WBack p => p - MB2 end.
(** Where a thread is (sctk_allocator.c, lines as noted).  [r] is the region header it found. *)
Inductive place :=
| PIdle
| PDone                                                  (* returned from registering or unregistering *)
| PFound (p res : Z)                                     (* returned from a lookup *)
| PLoop (w : work)                                       (* 2291, 2330: the test of the loop *)
| PGet (w : work)                                        (* 2253: read of the table *)
| PTest (w : work) | PInitLock (w : work) | PFlag (w : work) | PClear (w : work)          (* 2477, 2478, 2479, 2482 *)
| PLock (w : work) | PLook (w : work) | PMap (w : work) | PUnlock (w : work) (r : nat)    (* 2220, 2223, 2226-2232, 2238 *)
| PRead (w : work) (r : nat)                             (* first read of the entry: 2294, 2334, 2402, 2404 *)
| PWrite (w : work) (r : nat)                            (* 2295, 2336 *)
| PRead2 (p : Z) (r : nat) | PRead3 (p : Z) (r : nat)    (* second read of 2402; 2411 *)
| PBack2 (p : Z) (r : nat) | PBack3 (p : Z) (r : nat)    (* 2406: the first two reads *)
| PBack4 (p : Z) (r : nat) (e : Z)                       (* 2406: the third *)
| PHdr (p : Z) (r : nat) (e e' : Z)                      (* 2406: the size of [e'] *)
| PBack5 (p : Z) (r : nat)                               (* 2407 *)
| PDel1 (r : nat) (i c : Z) | PDel2 (r : nat) (i c : Z) | PDel3 (r : nat) (i c : Z) | PDelEnd.   (* 2377, 2378, 2379, 2383 *)

(** The table of regions, the region headers by number (a new one for each mmap), the headers of the segments (size, chain) while they are
    mapped, the flag 75 and the lock 73, the threads; [live]: the segments that are registered and that no call is unregistering. *)
Record cst := mkC { cregs : Z -> option nat; ctabs : nat -> Z -> Z; cnext : nat; chdr : Z -> option (Z * Z); cini : bool; clck : bool;
                    cat : nat -> place; clive : list (Z * Z) }.
(** [ini]: has [sctk_alloc_region_init] been called?; (sctk_allocator.c 71-75: the variables before start-up; 2476-2484.) *)
Definition c0 (ini : bool) : cst := mkC (fun _ => None) (fun _ _ => 0) O (fun _ => None) ini false (fun _ => PIdle) [].
(** Update of a function (no code of its own in /repo). *)
Definition fupd {A} (f : nat -> A) (x : nat) (v : A) : nat -> A := fun y => if Nat.eqb y x then v else f y.
(** A thread goes on (no code of its own in /repo: the program counter). *)
Definition go_to (s : cst) (t : nat) (p : place) : cst :=
  mkC (cregs s) (ctabs s) (cnext s) (chdr s) (cini s) (clck s) (fupd (cat s) t p) (clive s).
(** sctk_alloc_glob_regions_lock (sctk_allocator.c 73) taken, given back (2220, 2238, 2372, 2383) or initialised (2478). *)
Definition with_lock (s : cst) (b : bool) : cst := mkC (cregs s) (ctabs s) (cnext s) (chdr s) (cini s) b (cat s) (clive s).
(** sctk_alloc_glob_regions_init (sctk_allocator.c 75) set (2479). *)
Definition with_ini (s : cst) (b : bool) : cst := mkC (cregs s) (ctabs s) (cnext s) (chdr s) b (clck s) (cat s) (clive s).
(** sctk_alloc_glob_regions (sctk_allocator.c 71) cleared (2482). *)
Definition with_regs (s : cst) (f : Z -> option nat) : cst := mkC f (ctabs s) (cnext s) (chdr s) (cini s) (clck s) (cat s) (clive s).
(** A region header mapped and stored in the table (sctk_allocator.c 2226-2232). *)
Definition with_new (s : cst) (id : Z) : cst :=
  mkC (zupd (cregs s) id (Some (cnext s))) (fupd (ctabs s) (cnext s) (fun _ => 0)) (S (cnext s)) (chdr s) (cini s) (clck s) (cat s) (clive s).
(** Store in an entry (sctk_allocator.c 2295, 2336, 2379). *)
Definition with_entry (s : cst) (r : nat) (i v : Z) : cst :=
  mkC (cregs s) (fupd (ctabs s) r (zupd (ctabs s r) i v)) (cnext s) (chdr s) (cini s) (clck s) (cat s) (clive s).
(** The header of a segment: written (sctk_allocator.c 1222-1249), or unmapped (1565). *)
Definition with_hdr (s : cst) (b : Z) (h : option (Z * Z)) : cst :=
  mkC (cregs s) (ctabs s) (cnext s) (zupd (chdr s) b h) (cini s) (clck s) (cat s) (clive s).
(** Update of the ghost list [clive] (no code of its own in /repo). *)
Definition with_live (s : cst) (l : list (Z * Z)) : cst := mkC (cregs s) (ctabs s) (cnext s) (chdr s) (cini s) (clck s) (cat s) l.

(** 2270: index of the entry of an address. *)
Definition slot (a : Z) : Z := (a mod TB) / MB2.
(** The content of the entry of address [a] (sctk_allocator.c 2270-2274). *)
Definition entry (s : cst) (r : nat) (a : Z) : Z := ctabs s r (slot a).

(** The first access to the entry: 2281-2298, 2307-2339, 2391-2416. *)
Definition first_read (once : bool) (s : cst) (t : nat) (w : work) (r : nat) : res cst :=
  let e := entry s r (target w) in
  match w with
  | WSet b a => if e =? 0 then Ok (go_to s t (PWrite w r)) else Abort                                             (* 2333-2335 *)
  | WUnset b a => Ok (go_to s t (if e =? b then PWrite w r else PLoop (WUnset b (add64 a MB2))))                  (* 2294 *)
  | WFind p =>                                                                                                    (* 2402 *)
      if once then Ok (go_to s t (if ((e =? 0) || (p <? e)) && (MB2 <? p) then PGet (WBack p) else PFound p e))
      else Ok (go_to s t (if e =? 0 then (if MB2 <? p then PGet (WBack p) else PRead3 p r) else PRead2 p r))
  | WBack p =>                                                                                                    (* 2404 *)
      if e =? 0 then Ok (go_to s t (PFound p 0))
      else if once then Ok (go_to s t (if e <? p then PHdr p r e e else PFound p 0))                              (* 2406 *)
      else Ok (go_to s t (PBack2 p r))
  end.
(** The store in the entry: sctk_allocator.c 2295, 2336. *)
Definition second_write (s : cst) (t : nat) (w : work) (r : nat) : res cst :=
  match w with
  | WSet b a => Ok (go_to (with_entry s r (slot a) b) t (PLoop (WSet b (add64 a MB2))))                           (* 2336-2337 *)
  | WUnset b a => Ok (go_to (with_entry s r (slot a) 0) t (PLoop (WUnset b (add64 a MB2))))                       (* 2295-2296 *)
  | _ => UB
  end.
(** The test of the loops; at the end the segment is registered (2339), or it is given back and may be unmapped (1560-1572). *)
Definition loop_test (s : cst) (t : nat) (w : work) : res cst :=
  match w with
  | WSet b a =>
      match chdr s b with
      | None => UB
      | Some (sz, _) => if a <? add64 b sz then Ok (go_to s t (PGet w)) else Ok (go_to (with_live s ((b, sz) :: clive s)) t PDone)
      end
  | WUnset b a =>
      match chdr s b with
      | None => UB
      | Some (sz, _) => if a <? add64 b sz then Ok (go_to s t (PGet w)) else Ok (go_to (with_hdr s b None) t PDone)
      end
  | _ => UB
  end.

(** The next access of thread [t]; a thread that waits for the lock stays. (sctk_allocator.c 2209-2254, 2263-2298, 2307-2339, 2363-2384, 2391-2416, 2476-2484.) *)
Definition cgo (once : bool) (t : nat) (s : cst) : res cst :=
  match cat s t with
  | PIdle | PDone | PFound _ _ => Ok s
  | PLoop w => loop_test s t w
  | PGet w => rbind (get_id (target w)) (fun id => Ok (go_to s t (match cregs s id with Some r => PRead w r | None => PTest w end)))
  | PTest w => Ok (go_to s t (if cini s then PLock w else PInitLock w))
  | PInitLock w => Ok (go_to (with_lock s false) t (PFlag w))
  | PFlag w => Ok (go_to (with_ini s true) t (PClear w))
  | PClear w => Ok (go_to (with_regs s (fun _ => None)) t (PLock w))
  | PLock w => if clck s then Ok s else Ok (go_to (with_lock s true) t (PLook w))
  | PLook w => rbind (get_id (target w)) (fun id => Ok (go_to s t (match cregs s id with Some r => PUnlock w r | None => PMap w end)))
  | PMap w => rbind (get_id (target w)) (fun id => Ok (go_to (with_new s id) t (PUnlock w (cnext s))))
  | PUnlock w r => Ok (go_to (with_lock s false) t (PRead w r))
  | PRead w r => first_read once s t w r
  | PWrite w r => second_write s t w r
  | PRead2 p r => Ok (go_to s t (if (p <? entry s r p) && (MB2 <? p) then PGet (WBack p) else PRead3 p r))
  | PRead3 p r => Ok (go_to s t (PFound p (entry s r p)))
  | PBack2 p r => Ok (go_to s t (if entry s r (p - MB2) <? p then PBack3 p r else PFound p 0))
  | PBack3 p r => Ok (go_to s t (PBack4 p r (entry s r (p - MB2))))
  | PBack4 p r e => Ok (go_to s t (PHdr p r e (entry s r (p - MB2))))
  | PHdr p r e e' =>
      match chdr s e' with
      | None => UB
      | Some (sz, _) => Ok (go_to s t (if p <? add64 e sz then (if once then PFound p e else PBack5 p r) else PFound p 0))
      end
  | PBack5 p r => Ok (go_to s t (PFound p (entry s r (p - MB2))))
  | PDel1 r i c => Ok (go_to s t (if i =? ENTRIES then PDelEnd else if ctabs s r i =? 0 then PDel1 r (i + 1) c else PDel2 r i c))
  | PDel2 r i c =>
      match chdr s (ctabs s r i) with
      | None => UB
      | Some (_, ch) => Ok (go_to s t (if ch =? c then PDel3 r i c else PDel1 r (i + 1) c))
      end
  | PDel3 r i c => Ok (go_to (with_entry s r i 0) t (PDel1 r (i + 1) c))
  | PDelEnd => Ok (go_to (with_lock s false) t PDone)
  end.

(** The calls.  [CReg t c b sz]: thread [t] has got a segment of [sz] bytes at [b] and registers it for chain [c] (2307-2339; the chain is
    written in the header first).  [CUnreg]: 2281-2298, then the segment is given back.  [CFind]: 2391-2416.  [CDel]: 2363-2384 on the region of
    [a], [c] being not NULL; the call starts when the lock is free. *)
Inductive cact := CReg (t : nat) (c b sz : Z) | CUnreg (t : nat) (b : Z) | CFind (t : nat) (p : Z) | CDel (t : nat) (a c : Z) | CGo (t : nat).
(** Is the thread outside of a call (no code of its own in /repo). *)
Definition resting (p : place) : bool := match p with PIdle | PDone | PFound _ _ => true | _ => false end.
(** One action: the start of a call (sctk_allocator.c 2281, 2307, 2391, 2363) or the next access of one. *)
Definition cstep (once : bool) (x : cact) (s : cst) : res cst :=
  match x with
  | CReg t c b sz => Ok (go_to (with_hdr s b (Some (sz, c))) t (PLoop (WSet b b)))
  | CUnreg t b => Ok (go_to (with_live s (filter (fun '(y, _) => negb (y =? b)) (clive s))) t (PLoop (WUnset b b)))
  | CFind t p => Ok (go_to s t (PGet (WFind p)))
  | CDel t a c =>
      rbind (get_id a) (fun id =>
      match cregs s id with None => Ok (go_to s t PDone) | Some r => if clck s then Ok s else Ok (go_to (with_lock s true) t (PDel1 r 0 c)) end)
  | CGo t => cgo once t s
  end.
