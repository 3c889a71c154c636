(** The counter of segments of a shared chain, sctk_allocator.c 1536-1575 [sctk_alloc_chain_free_macro_bloc] called on the path of the huge
    blocks (1608-1615), which does not take the lock of the chain, and 1304 (cnt_macro_blocs++ of [sctk_alloc_chain_request_mem]), called for a
    huge block at 1464-1469, without the lock either.  Model only, no proofs.

    Each thread makes one such call on a chain marked for destruction.  The decrement and the increment are a load and a store; the test of
    1572 is another load.  Memory is sequentially consistent here. *)
From Coq Require Import ZArith List.
Import ListNotations.
Open Scope Z_scope.

(** A decrement (1568) or an increment (1304). *)
Inductive kind := Dec | Inc.
(** Start: before the decrement (the segment has gone back to the source, 1565).  Read v: after the load.  Wrote: after the store. *)
Inductive pc := Start (k : kind) | Read (k : kind) (v : Z) | Wrote (k : kind) | Over (k : kind).
Record cnt_st := mkCnt { cnt : Z; pcs : list pc; calls : nat }.   (* calls: of the destroy handler, 1574; Update of the place of a thread (no code of its own in /repo). *)
Fixpoint put (i : nat) (p : pc) (l : list pc) : list pc :=
  match l, i with [], _ => [] | _ :: l, O => p :: l | x :: l, S i => x :: put i p l end.
(** One access of thread [i]: 1568, 1304, 1572-1574. *)
Definition step (i : nat) (s : cnt_st) : cnt_st :=
  match nth_error (pcs s) i with
  | Some (Start k) => mkCnt (cnt s) (put i (Read k (cnt s)) (pcs s)) (calls s)
  | Some (Read k v) => mkCnt (match k with Dec => v - 1 | Inc => v + 1 end) (put i (Wrote k) (pcs s)) (calls s)                     (* 1568, 1304 *)
  | Some (Wrote Dec) => mkCnt (cnt s) (put i (Over Dec) (pcs s)) (if cnt s =? 0 then S (calls s) else calls s)                      (* 1572-1574 *)
  | Some (Wrote Inc) => mkCnt (cnt s) (put i (Over Inc) (pcs s)) (calls s)
  | Some (Over _) | None => s
  end.
(** A schedule: which thread goes next. (No code of its own in /repo.) *)
Definition sched (l : list nat) (s : cnt_st) : cnt_st := fold_left (fun s i => step i s) l s.
(** [n] threads free the [n] segments of the chain, all huge blocks. (1608-1615.) *)
Definition frees_of (n : nat) : cnt_st := mkCnt (Z.of_nat n) (repeat (Start Dec) n) 0.
(** Has the thread stored the counter (no code of its own in /repo). *)
Definition wrote (p : pc) : bool := match p with Wrote _ | Over _ => true | Start _ | Read _ _ => false end.
(** Is the call over (no code of its own in /repo). *)
Definition over (p : pc) : bool := match p with Over _ => true | _ => false end.
