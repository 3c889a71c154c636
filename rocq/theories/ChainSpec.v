(** What a program can observe of an allocation chain: calls, results, exchanges with the memory source.
    This file is the specification side: it does not mention chunks, headers or free lists. *)
From Verif Require Import Word Res Mem SizeClassModel ChainModel.
From Coq Require Import ZArith List Bool.
Import ListNotations.
Open Scope Z_scope.

(** A block the program holds: address, size asked, alignment asked (0 or 1: none). *)
Record blk := mkBlk { bp : Z; bn : Z; bd : Z }.

(** Calls.  [grant] is the answer of the memory source if the call asks it for memory ([None]: refusal);
    [hook] is the alignment that the hook function of the library gives to plain allocations;
    [OWrite] is a store by the program itself, [ORemote] a free issued by a thread that does not own the
    chain, [OPurge] the owner collecting the remote frees; [OStore] is any change of memory made by others: the
    program, other chains, the system. *)
Inductive op :=
| OAlloc (d n : Z) (grant : option Z)
| OFree (p : Z)
| ORealloc (hook p n : Z) (grant : option Z)
| ORefill (buf size : Z)
| OWrite (x v : Z)
| ORemote (p : Z)
| OPurge
| OStore (m : mem).

Definition exec (fuel : nat) (g : cfg) (o : op) : M Z :=
  match o with
  | OAlloc d n gr => alloc_align fuel g gr d n
  | OFree p => chain_free fuel g p ;;; ret 0
  | ORealloc h p n gr => chain_realloc fuel g gr h p n
  | ORefill b z => user_refill g b z ;;; ret 0
  | OWrite x v => modst (fun s => set_mem s (sto (smem s) x 1 v)) ;;; ret 0
  | ORemote p => rfq_register p ;;; ret 0
  | OPurge => purge_rfq fuel fuel g ;;; ret 0
  | OStore m => modst (fun s => set_mem s m) ;;; ret 0
  end.

(** One call; [sevs] then holds the exchanges with the source made by this call, latest first. *)
Definition clear_ev (s : st) : st :=
  mkSt (smem s) (srng s) (sbase s) (send s) (scnt s) (rqh s) (rqt s) [].
Definition step (fuel : nat) (g : cfg) (o : op) (s : st) : res (Z * st) := exec fuel g o (clear_ev s).

(** What the program and the source know: live blocks, blocks freed remotely and not yet collected, memory
    ranges in the hands of the chain. *)
Record obs := mkObs { live : list blk; pend : list blk; segs : list (Z * Z) }.

Definition rm (p : Z) (l : list blk) : list blk := filter (fun b => negb (bp b =? p)) l.
Definition resize (p n : Z) (l : list blk) : list blk :=
  map (fun b => if bp b =? p then mkBlk p n (bd b) else b) l.

Definition apply_ev (e : ev) (l : list (Z * Z)) : list (Z * Z) :=
  match e with
  | EGet b z => (b, z) :: l
  | EPut b => filter (fun '(x, _) => negb (x =? b)) l
  end.

(** How a call with result [r] and exchanges [evs] changes what is observed. *)
Definition next (o : obs) (c : op) (r : Z) (evs : list ev) : obs :=
  let sg := fold_right apply_ev (segs o) evs in
  match c with
  | OAlloc d n _ => mkObs (if r =? 0 then live o else mkBlk r n d :: live o) (pend o) sg
  | OFree p => mkObs (rm p (live o)) (pend o) sg
  | ORealloc h p n _ =>
      mkObs
        (if p =? 0 then (if r =? 0 then live o else mkBlk r n h :: live o)
         else if n =? 0 then rm p (live o)
         else if r =? p then resize p n (live o)
         else if r =? 0 then rm p (live o)
         else mkBlk r n h :: rm p (live o)) (pend o) sg
  | ORefill b z => mkObs (live o) (pend o) (if b =? 0 then sg else (b, z) :: sg)
  | OWrite _ _ | OStore _ => mkObs (live o) (pend o) sg
  | ORemote p => mkObs (rm p (live o)) (pend o ++ filter (fun b => bp b =? p) (live o)) sg
  | OPurge => mkObs (live o) [] sg
  end.

(** ** Valid calls *)
Definition apart (x y : Z * Z) : Prop := fst x + snd x <= fst y \/ fst y + snd y <= fst x.

(** A memory range that may be given to the chain. *)
Definition new_range (g : cfg) (o : obs) (b z : Z) : Prop :=
  0 < b /\ b + z <= 2 ^ 56 /\ b mod 8 = 0 /\ z mod 16 = 0 /\ 80 < z /\
  forall r, In r ((cpool g, POOL_SIZE) :: segs o) -> apart (b, z) r.

(** Bytes needed for [n] bytes aligned on [d], and the range asked to the source for them: the next
    multiple of 2 MB for requests above 1 MB - 16, 2 MB for the others. *)
Definition asked (d n : Z) : Z := if 1 <? d then n + d else n.
Definition huge (d n : Z) : Prop := 1048576 - 16 < asked d n.
Definition ask_size (d n : Z) : Z :=
  if 1048576 - 16 <? asked d n then (asked d n + 48 + 2097151) / 2097152 * 2097152 else 2097152.

(** A request: the alignment is a power of two (or none), the size does not wrap around; on a chain with a
    memory source, requests whose size falls in the 16 bytes below [k * 2 MB - 48] are excluded (they get a
    block that is too small, see C13_huge_gap_refuted). *)
Definition request_ok (g : cfg) (o : obs) (d n : Z) (gr : option Z) : Prop :=
  0 <= n /\ (d = 0 \/ exists k, 0 <= k /\ d = 2 ^ k) /\ n + d < 2 ^ 63 - 64 /\
  (csrc g = true -> huge d n -> (asked d n + 47) mod 2097152 < 2097152 - 16) /\
  (csrc g = true -> forall b, gr = Some b -> new_range g o b (ask_size d n)).

(** Memory that only the chain may change: its structure and what it holds, except the blocks of the program. *)
Definition private (g : cfg) (s : st) (o : obs) (x : Z) : Prop :=
  (exists b z, In (b, z) ((cpool g, POOL_SIZE) :: segs o) /\ b <= x < b + z) /\
  forall b u s', In b (live o) -> usable_size (bp b) s = Ok (u, s') -> ~ bp b <= x < bp b + u.

Definition valid (g : cfg) (s : st) (o : obs) (c : op) : Prop :=
  match c with
  | OAlloc d n gr => request_ok g o d n gr
  | OFree p => p = 0 \/ exists n d, In (mkBlk p n d) (live o)
  | ORealloc h p n gr =>
      (p = 0 \/ exists m d, In (mkBlk p m d) (live o) /\ d <= 1) /\ request_ok g o h n gr /\ 0 < cfactor g
  | ORefill b z => csrc g = false /\ (b = 0 /\ z = 0 \/ new_range g o b z)
  | OWrite x v => exists p n d u s', In (mkBlk p n d) (live o) /\ usable_size p s = Ok (u, s') /\ p <= x < p + u
  | ORemote p => exists n d, In (mkBlk p n d) (live o)
  | OPurge => True
  | OStore m => forall x, private g s o x -> m x = smem s x
  end.

Definition wf_cfg (g : cfg) : Prop := 0 < cpool g /\ cpool g + POOL_SIZE <= 2 ^ 56.

(** ** Reachable states: any history of valid calls on a chain created on any memory content. *)
Inductive reach (g : cfg) : st -> obs -> Prop :=
| reach_init m s : wf_cfg g -> base_init g (init_state g m) = Ok (tt, s) -> reach g s (mkObs [] [] [])
| reach_step s o fuel c r s' :
    reach g s o -> valid g s o c -> step fuel g c s = Ok (r, s') ->
    reach g s' (next o c r (sevs s')).

(** The block a call is about, and the bytes it writes. *)
Definition target (c : op) (q : Z) : Prop :=
  match c with OFree p | ORealloc _ p _ _ | ORemote p => q = p | _ => False end.
Definition written (c : op) (x : Z) : Prop := match c with OWrite y _ => x = y | OStore _ => True | _ => False end.

(** Bytes in the hands of the chain, and bytes it may get during the call. *)
Definition held (o : obs) : Z := fold_right Z.add 0 (map snd (segs o)).
Definition extra (g : cfg) (c : op) : Z :=
  match c with
  | OAlloc d n _ | ORealloc d _ n _ => if csrc g then ask_size d n else 0
  | ORefill _ z => z
  | _ => 0
  end.
Definition fuel_ok (g : cfg) (o : obs) (c : op) (fuel : nat) : Prop := held o + extra g c < Z.of_nat fuel.

(** ** Vocabulary of the properties *)

(** Blocks in use: live, or freed remotely and not yet collected. *)
Definition blocks (o : obs) : list blk := live o ++ pend o.
(** The size that the allocator reports for a pointer. *)
Definition usable (s : st) (p u : Z) : Prop := usable_size p s = Ok (u, s).
(** Bytes taken by a request: 16 for the header, rounded up to 16, at least 32. *)
Definition room (d n : Z) : Z := Z.max 32 ((asked d n + 31) / 16 * 16).

(** Memory occupied by the block at [p], read from memory: it starts 16 bytes before [p], or, when the type
    bits of the byte before [p] say "padded", where the 7 bytes at [p - 8] tell; its size is in the first 7
    bytes. *)
Definition occ_start (m : mem) (p : Z) : Z :=
  if ld m (p - 1) 1 mod 4 =? 2 then p - 8 - ld m (p - 8) 7 - 16 else p - 16.
Definition occ (m : mem) (p : Z) : Z * Z := (occ_start m p, ld m (occ_start m p) 7).

(** Walk over the chunks of a segment from [a] to exactly [e]: start, size and "is free" of each. *)
Fixpoint walk (fuel : nat) (m : mem) (a e : Z) : option (list (Z * Z * bool)) :=
  match fuel with
  | O => None
  | S f =>
      if a =? e then Some []
      else match walk f m (a + ld m a 7) e with
           | Some l => Some ((a, ld m a 7, (ld m (a + 15) 1 / 4) mod 2 =? 0) :: l)
           | None => None
           end
  end.
Definition chunks (m : mem) (r : Z * Z) : list (Z * Z * bool) :=
  match walk (Z.to_nat (snd r)) m (fst r + 32) (fst r + snd r - 16) with Some l => l | None => [] end.
Definition pos2 (x : Z * Z * bool) : Z * Z := fst x.
Definition is_free (x : Z * Z * bool) : bool := snd x.
(** Free and occupied pieces of the segment [r]. *)
Definition free_in (m : mem) (r : Z * Z) : list (Z * Z) := map pos2 (filter is_free (chunks m r)).
Definition occ_in (m : mem) (r : Z * Z) : list (Z * Z) := map pos2 (filter (fun x => negb (is_free x)) (chunks m r)).
Definition total (l : list (Z * Z)) : Z := fold_right Z.add 0 (map snd l).
Definition inside (r : Z * Z) (b : blk) : bool := (fst r <=? bp b) && (bp b <? fst r + snd r).

(** Walk of a free list from [x] back to its head, forwards or backwards. *)
Fixpoint ring (fuel : nat) (m : mem) (off h x : Z) : option (list Z) :=
  match fuel with
  | O => None
  | S f => if x =? h then Some []
           else match ring f m off h (ld m (x + off) 8) with Some l => Some (x :: l) | None => None end
  end.

(** The free list of a free piece of [c] bytes: the largest class (of the table) not above [c] up to 2 MB, the
    list 44 above. *)
Definition filed (c i : Z) : Prop :=
  if c <=? 2097152
  then 0 <= i <= 42 /\ nth (Z.to_nat i) FREE_SIZES 0 <= c /\ forall k, i < k <= 42 -> c < nth (Z.to_nat k) FREE_SIZES 0
  else i = 44.
(** Head of the list [i], and its "not empty" byte. *)
Definition list_head (g : cfg) (i : Z) : Z := cpool g + 32 * i.
Definition list_flag (g : cfg) (m : mem) (i : Z) : Z := ld m (cpool g + 1536 + i) 1.

(** A sequence of valid calls. *)
Inductive steps (g : cfg) : st -> obs -> list op -> st -> obs -> Prop :=
| steps_nil s o : steps g s o [] s o
| steps_cons s o fuel c r s1 cs s2 o2 :
    valid g s o c -> step fuel g c s = Ok (r, s1) -> steps g s1 (next o c r (sevs s1)) cs s2 o2 ->
    steps g s o (c :: cs) s2 o2.
