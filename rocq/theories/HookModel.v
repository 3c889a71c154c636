(** The events of an allocation chain (compiled with ENABLE_ALLOC_HOOKS, sctk_alloc_hooks.h:34-43): the functions of
    ChainModel.v with the calls of the hooks in place.  A hook is a function of the user; here it only writes down
    that it was called.  Left out: the events of chains (init, destroy), chain_split and chain_merge, and the two events raised
    outside of the chain (chain_remote_free, chain_next_is_realloc). *)
From Verif Require Import Word Res Mem SizeClassModel ChainModel ChainSpec.
From Coq Require Import ZArith List Bool.
Import ListNotations.
Open Scope Z_scope.

(** sctk_alloc_hooks.h:51-64: parameters without the chain *)
Inductive hev :=
| HAdd (bloc : Z)
| HDrop (bloc : Z)
| HFlush (nb : Z)
| HEntry (ptr : Z)
| HAlloc (request ptr size boundary : Z)
| HFree (ptr size : Z)
| HHugeAlloc (request ptr size boundary : Z)
| HHugeFree (ptr size : Z).

(** sctk_alloc_hooks.h:68-84: which functions are not NULL *)
Record hooks := mkHooks {
  k_add : bool; k_drop : bool; k_flush : bool; k_entry : bool;
  k_alloc : bool; k_free : bool; k_halloc : bool; k_hfree : bool }.

(** A computation with a log of the events, latest first. (No code of its own in /repo.) *)
Definition H (A : Type) : Type := st -> res (A * st * list hev).
(** Nothing happens (no code of its own in /repo). *)
Definition hret {A} (a : A) : H A := fun s => Ok (a, s, []).
(** One computation after the other (no code of its own in /repo). *)
Definition hbind {A B} (x : H A) (f : A -> H B) : H B := fun s =>
  rbind (x s) (fun '(a, s1, l1) => rbind (f a s1) (fun '(b, s2, l2) => Ok (b, s2, l2 ++ l1))).
(** A computation of ChainModel.v, without event (no code of its own in /repo). *)
Definition up {A} (x : M A) : H A := fun s => rbind (x s) (fun '(a, s1) => Ok (a, s1, [])).
(** A hook is called, sctk_alloc_hooks.h:34-43. *)
Definition emit (e : hev) : H unit := fun s => Ok (tt, s, [e]).
(** sctk_alloc_hooks.h:35 [SCTK_ALLOC_HOOK]: the arguments are evaluated only if the hook is set *)
Definition hook (b : bool) (x : H unit) : H unit := if b then x else hret tt.

Notation "x <-- a ;; b" := (hbind a (fun x => b)) (at level 61, a at next level, right associativity).
Notation "a ;;> b" := (hbind a (fun _ => b)) (at level 61, right associativity).

(** sctk_allocator.c:1260-1308 [sctk_alloc_chain_request_mem]; the hook (1293) is called with the answer of the source, NULL included *)
Definition request_mem_h (k : hooks) (g : cfg) (grant : option Z) (n : Z) : H Z :=
  if negb (csrc g) then hret 0
  else
    let s1 := add64 n (SZ_MACRO + SZ_LARGE) in
    let size := if negb (s1 mod MACRO_BLOC =? 0) then add64 s1 (MACRO_BLOC - s1 mod MACRO_BLOC) else s1 in
    b <-- up (source_request grant size) ;;
    hook (k_add k) (emit (HAdd b)) ;;>
    if b =? 0 then hret 0
    else
      up (v <- prepare_macro_bloc g b ;;
          modst (fun s => set_cnt s (scnt s + 1)) ;;;
          ret v).

(** sctk_allocator.c:1378-1391 [sctk_alloc_chain_refill_mem] *)
Definition refill_mem_h (k : hooks) (g : cfg) (grant : option Z) (n : Z) : H bool :=
  v <-- request_mem_h k g grant n ;;
  if v =? 0 then hret false
  else up (free_list_insert g (large_of v) AtEnd ;;; ret true).

(** The second parameter of the hooks 1471 and 1513: the header of alignment is written by the hook call as well *)
Definition hook_ptr (v boundary : Z) : H Z :=
  w <-- up (if 1 <? boundary then setup_chunk_padded v boundary else ret v) ;;
  hret (chunk_body w).

(** sctk_allocator.c:1444-1529 [sctk_alloc_chain_alloc_align], hooks at 1471 and 1513 *)
Definition alloc_align_h (k : hooks) (fuel : nat) (g : cfg) (grant : option Z) (boundary n : Z) : H Z :=
  if n =? 0 then hret 0
  else
    let size := if 1 <? boundary then add64 n boundary else n in
    if is_huge g size then
      v <-- request_mem_h k g grant size ;;
      hook (k_halloc k) (p <-- hook_ptr v boundary ;; z <-- up (vsize v) ;; emit (HHugeAlloc (sub64 size boundary) p z boundary)) ;;>
      w <-- up (if 1 <? boundary then setup_chunk_padded v boundary else ret v) ;;
      hret (chunk_body w)
    else
      c <-- up (find_free_chunk fuel g size) ;;
      c <-- (if c =? 0 then
               ok <-- refill_mem_h k g grant (calc_chunk_size size) ;;
               if ok : bool then up (find_free_chunk fuel g size) else hret c
             else hret c) ;;
      if c =? 0 then hret 0
      else
        v <-- up (cs <- get_size c ;;
                  assume (32 <=? cs) ;;;
                  vr <- split_free_bloc (vchunk_of_large c) size ;;
                  let v := fst vr in
                  let r := snd vr in
                  vs <- vsize v ;;
                  assume (calc_chunk_size size <=? vs) ;;;
                  (if r =? 0 then ret tt else free_list_insert g (large_of r) AtStart) ;;;
                  ret v) ;;
        hook (k_alloc k) (p <-- hook_ptr v boundary ;; z <-- up (vsize v) ;; emit (HAlloc size p z boundary)) ;;>
        w <-- up (if 1 <? boundary then setup_chunk_padded v boundary else ret v) ;;
        hret (chunk_body w).

(** sctk_allocator.c:1537-1575 [sctk_alloc_chain_free_macro_bloc], hook at 1564 *)
Definition free_macro_bloc_h (k : hooks) (g : cfg) (v : Z) : H unit :=
  sz <-- up (vsize v) ;;
  if negb (sz mod MACRO_BLOC =? MACRO_BLOC - SZ_MACRO - SZ_LARGE) then hret tt
  else
    a <-- up (get_ptr v) ;;
    hook (k_drop k) (emit (HDrop (a - SZ_MACRO))) ;;>
    up (source_free g (a - SZ_MACRO) ;;;
        modst (fun s => set_cnt s (scnt s - 1))).

(** sctk_allocator.c:1583-1653 [sctk_alloc_chain_free], hooks at 1614 and 1624 *)
Definition chain_free_h (k : hooks) (fuel : nat) (g : cfg) (ptr : Z) : H unit :=
  if ptr =? 0 then hret tt
  else
    v <-- up (get_chunk_unpadded ptr) ;;
    if v =? 0 then up (assume (negb (cstrict g)))
    else
      sz <-- up (s <- get_state v ;;
                 assume (s =? S_ALLOC) ;;;
                 vsize v) ;;
      if is_huge g sz then
        hook (k_hfree k) (z <-- up (vsize v) ;; emit (HHugeFree ptr z)) ;;>
        free_macro_bloc_h k g v
      else
        hook (k_free k) (z <-- up (vsize v) ;; emit (HFree ptr z)) ;;>
        v <-- up (s0 <- getst ;;
                  (if negb (sbase s0 =? 0) then (get_chunk (sbase s0 + SZ_LARGE) ;;; ret tt) else ret tt) ;;;
                  (if cmerge g then merge_chunk fuel g v else ret v)) ;;
        sz <-- up (vsize v) ;;
        if csrc g && (sz mod MACRO_BLOC =? MACRO_BLOC - SZ_MACRO - SZ_LARGE)
        then free_macro_bloc_h k g v
        else up (free_list_insert g (large_of v) AtEnd).

(** sctk_allocator.c:1680-1749 [sctk_alloc_chain_realloc] *)
Definition chain_realloc_h (k : hooks) (fuel : nat) (g : cfg) (grant : option Z) (hk ptr n : Z) : H Z :=
  if (ptr =? 0) && (n =? 0) then hret 0
  else if ptr =? 0 then alloc_align_h k fuel g grant hk n
  else if n =? 0 then chain_free_h k fuel g ptr ;;> hret 0
  else
    v <-- up (get_chunk ptr) ;;
    if v =? 0 then (if cstrict g then up abort else hret 0)
    else
      us <-- up (u <- unpad_vchunk v ;; vsize u) ;;
      let old := sub64 us SZ_LARGE in
      let delta := sub64 old n in
      keep <-- up (if (n <=? old) && (delta <=? cthresh g)
                   then (if cfactor g =? 0 then ub else ret (delta <=? old / cfactor g))
                   else ret false) ;;
      if keep : bool then hret ptr
      else
        r <-- alloc_align_h k fuel g grant hk n ;;
        up (if r =? 0 then ret tt else memcpy r ptr (if old <? n then old else n)) ;;>
        chain_free_h k fuel g ptr ;;>
        hret r.

(** sctk_allocator.c:2589-2598 [sctk_alloc_rfq_count_entries]: the test is on [entries], which never changes *)
Fixpoint count_loop (fuel : nat) (entries cur cnt : Z) : M Z :=
  match fuel with
  | O => nofuel
  | S f =>
      if entries =? 0 then ret cnt
      else n <- loadn cur 8 ;; count_loop f entries n (cnt + 1)
  end.

(** sctk_allocator.c:1787-1825 [sctk_alloc_chain_purge_rfq], hooks at 1806 and 1814 *)
Fixpoint purge_loop_h (k : hooks) (fuel qfuel : nat) (g : cfg) (e : Z) : H unit :=
  match qfuel with
  | O => up nofuel
  | S q =>
      if e =? 0 then hret tt
      else
        hook (k_entry k) (p <-- up (loadn (e + 8) 8) ;; emit (HEntry p)) ;;>
        n <-- up (loadn e 8) ;;
        p <-- up (loadn (e + 8) 8) ;;
        chain_free_h k fuel g p ;;>
        purge_loop_h k fuel q g n
  end.
(** sctk_allocator.c:1787-1825 [sctk_alloc_chain_purge_rfq], before the loop. *)
Definition purge_rfq_h (k : hooks) (fuel qfuel : nat) (g : cfg) : H unit :=
  s <-- up getst ;;
  if rqh s =? 0 then hret tt
  else
    let e := rqh s in
    up (modst (fun s => set_rq s 0 0)) ;;>
    hook (k_flush k) (c <-- up (count_loop qfuel e e 0) ;; emit (HFlush c)) ;;>
    purge_loop_h k fuel qfuel g e.

(** One call with the hooks [k] installed. (sctk_allocator.c:1415-1825.) *)
Definition exec_h (k : hooks) (fuel : nat) (g : cfg) (o : op) : H Z :=
  match o with
  | OAlloc d n gr => alloc_align_h k fuel g gr d n
  | OFree p => chain_free_h k fuel g p ;;> hret 0
  | ORealloc h p n gr => chain_realloc_h k fuel g gr h p n
  | OPurge => purge_rfq_h k fuel fuel g ;;> hret 0
  | _ => up (exec fuel g o)
  end.
(** One call from a state without events (sctk_allocator.c:1415-1825). *)
Definition step_h (k : hooks) (fuel : nat) (g : cfg) (o : op) (s : st) : res (Z * st * list hev) := exec_h k fuel g o (clear_ev s).
