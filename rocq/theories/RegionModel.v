(** The registry of segments ("macro blocs") by address, sctk_allocator.c 2194-2507.
    One table of 256 regions of 1 TB; a region header holds one entry per 2 MB.  The locks around the set-up of a region header are
    left out: this file is about sequential histories of the registry. *)
From Verif Require Import Word Res.
From Coq Require Import ZArith List Bool.
Import ListNotations.
Open Scope Z_scope.

(** SCTK_MACRO_BLOC_SIZE, sctk_alloc_common.h 86. *)
Definition MB2 : Z := 2097152.
(** SCTK_REGION_SIZE, sctk_alloc_common.h 98. *)
Definition TB : Z := 1099511627776.
(** SCTK_REGION_HEADER_ENTRIES, sctk_alloc_common.h 100. *)
Definition ENTRIES : Z := 524288.
(** SCTK_ALLOC_MAX_REGIONS, sctk_alloc_common.h 106. *)
Definition MAXREG : Z := 256.

(** [regs id]: the header of region [id] when it is mapped, as the macro bloc pointers of its entries (0 is NULL).
    [hdr b]: size and chain read in the header of the macro bloc at address [b], when the memory there is still mapped
    (struct sctk_alloc_macro_bloc, sctk_alloc_mmsrc.h 43-51). *)
Record rst := mkR { regs : Z -> option (Z -> Z); hdr : Z -> option (Z * Z) }.
(** The table before start-up, sctk_allocator.c 71. *)
Definition r0 : rst := mkR (fun _ => None) (fun _ => None).

(** Update of a function (no code of its own in /repo). *)
Definition zupd {A} (f : Z -> A) (x : Z) (v : A) : Z -> A := fun y => if y =? x then v else f y.

(** 2194-2199 [sctk_alloc_region_get_id]: the assertion is off, so a larger id is an access outside the array. *)
Definition get_id (a : Z) : res Z := let id := a / TB in if (0 <=? id) && (id <? MAXREG) then Ok id else UB.

(** 2209-2242 [sctk_alloc_region_setup]: mmap gives zeroed memory. *)
Definition setup (id : Z) (s : rst) : rst :=
  match regs s id with None => mkR (zupd (regs s) id (Some (fun _ => 0))) (hdr s) | Some _ => s end.

(** 2263-2275 [sctk_alloc_region_get_entry], followed by a read of the entry. *)
Definition rd_entry (a : Z) (s : rst) : res (Z * rst) :=
  rbind (get_id a) (fun id => let s1 := setup id s in
    match regs s1 id with Some e => Ok (e ((a mod TB) / MB2), s1) | None => UB end).
(** The same followed by a write. (2295, 2336.) *)
Definition wr_entry (a v : Z) (s : rst) : res rst :=
  rbind (get_id a) (fun id => let s1 := setup id s in
    match regs s1 id with Some e => Ok (mkR (zupd (regs s1) id (Some (zupd e ((a mod TB) / MB2) v))) (hdr s1)) | None => UB end).
(** Read of the header of a macro bloc. (2291, 2330, 2378, 2406.) *)
Definition rd_hdr (b : Z) (s : rst) : res (Z * Z) := match hdr s b with Some x => Ok x | None => UB end.

(** 2281-2298 [sctk_alloc_region_unset_entry], the loop. *)
Fixpoint unset_loop (fuel : nat) (b ptr : Z) (s : rst) : res rst :=
  match fuel with
  | O => OutOfFuel
  | S fuel =>
      rbind (rd_hdr b s) (fun '(sz, _) =>
      if ptr <? add64 b sz then                                                  (* 2291 *)
        rbind (rd_entry ptr s) (fun '(e, s1) =>                                  (* 2293 *)
        rbind (if e =? b then wr_entry ptr 0 s1 else Ok s1) (fun s2 =>           (* 2294-2295 *)
        unset_loop fuel b (add64 ptr MB2) s2))                                   (* 2296 *)
      else Ok s)
  end.
(** 2281-2298 [sctk_alloc_region_unset_entry]. *)
Definition unset_entry (fuel : nat) (b : Z) (s : rst) : res rst := unset_loop fuel b b s.

(** 2307-2339 [sctk_alloc_region_set_entry], the loop. *)
Fixpoint set_loop (fuel : nat) (b ptr : Z) (s : rst) : res rst :=
  match fuel with
  | O => OutOfFuel
  | S fuel =>
      rbind (rd_hdr b s) (fun '(sz, _) =>
      if ptr <? add64 b sz then                                                  (* 2330 *)
        rbind (rd_entry ptr s) (fun '(e, s1) =>                                  (* 2332 *)
        if e =? 0 then                                                           (* 2333-2335 *)
          rbind (wr_entry ptr b s1) (fun s2 =>                                   (* 2336 *)
          set_loop fuel b (add64 ptr MB2) s2)                                    (* 2337 *)
        else Abort)
      else Ok s)
  end.
(** 2307-2339 [sctk_alloc_region_set_entry].  The chain is written in the header first (2318). *)
Definition set_entry (fuel : nat) (c b : Z) (s : rst) : res rst :=
  rbind (rd_hdr b s) (fun '(sz, _) => set_loop fuel b b (mkR (regs s) (zupd (hdr s) b (Some (sz, c))))).

(** 2363-2384 [sctk_alloc_region_del_chain]: [n] entries from [i] on. *)
Fixpoint del_loop (n : nat) (i : Z) (c : Z) (h : Z -> option (Z * Z)) (e : Z -> Z) : res (Z -> Z) :=
  match n with
  | O => Ok e
  | S n =>
      let e1 := if c =? 0 then zupd e i 0 else e in                              (* 2375-2376 *)
      if e1 i =? 0 then del_loop n (i + 1) c h e1                                (* 2377 *)
      else match h (e1 i) with                                                   (* 2378 *)
           | None => UB
           | Some (_, ch) => del_loop n (i + 1) c h (if ch =? c then zupd e1 i 0 else e1)
           end
  end.
(** 2363-2384 as called at lines 1174 and 1175, on the region of an address. *)
Definition del_chain (a c : Z) (s : rst) : res rst :=
  rbind (get_id a) (fun id =>
    match regs s id with
    | None => Ok s                                                               (* 2367-2368 *)
    | Some e => rbind (del_loop (Z.to_nat ENTRIES) 0 c (hdr s) e) (fun e' => Ok (mkR (zupd (regs s) id (Some e')) (hdr s)))
    end).

(** 2391-2416 [sctk_alloc_region_get_macro_bloc]. *)
Definition get_macro_bloc (p : Z) (s : rst) : res (Z * rst) :=
  rbind (rd_entry p s) (fun '(e, s1) =>                                          (* 2398 *)
  if ((e =? 0) || (p <? e)) && (MB2 <? p) then                                   (* 2402 *)
    rbind (rd_entry (p - MB2) s1) (fun '(e2, s2) =>                              (* 2403 *)
    if e2 =? 0 then Ok (0, s2)                                                   (* 2404-2405 *)
    else if e2 <? p then
      rbind (rd_hdr e2 s2) (fun '(sz, _) =>
      if p <? add64 e2 sz then Ok (e2, s2) else Ok (0, s2))                      (* 2406-2409 *)
    else Ok (0, s2))
  else Ok (e, s1)).                                                              (* 2411 *)

(** What the chains do with the registry.
    [RSet c b sz]: a chain gets a segment, writes its header and registers it (sctk_alloc_chain_prepare_and_reg_macro_bloc 1222-1249).  [RUnset b]: a chain unregisters a segment and gives it back, which may unmap it (1560-1565).  [RFind p]: a lookup
    (sctk_free, sctk_realloc).  [RDel a c]: sctk_alloc_chain_destroy on a chain [c] with base address [a] (1174-1175). *)
Inductive rop := RSet (c b sz : Z) | RUnset (b : Z) | RFind (p : Z) | RDel (a c : Z).
(** Fuel for the loops over a segment (no code of its own in /repo). *)
Definition loop_fuel (sz : Z) : nat := S (S (Z.to_nat (sz / MB2))).
(** One of [rop]: 1222-1249, 1560-1565, 2391-2416, 1174-1175. *)
Definition rstep (a : rop) (s : rst) : res (Z * rst) :=
  match a with
  | RSet c b sz => rbind (set_entry (loop_fuel sz) c b (mkR (regs s) (zupd (hdr s) b (Some (sz, 0))))) (fun s1 => Ok (0, s1))
  | RUnset b =>
      rbind (rd_hdr b s) (fun '(sz, _) =>
      rbind (unset_entry (loop_fuel sz) b s) (fun s1 => Ok (0, mkR (regs s1) (zupd (hdr s1) b None))))
  | RFind p => get_macro_bloc p s
  | RDel a c => rbind (del_chain a c s) (fun s1 => Ok (0, s1))
  end.
