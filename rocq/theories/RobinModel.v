(** The round robin over the memory sources, called by any number of threads: sctk_alloc_posix.c 299-314
    [sctk_alloc_posix_source_round_robin].  Model only, no proofs.

    Simplifications: each access to [cnt] is atomic and sequentially consistent; [cnt = (cnt + 1) % n] is one step; the spin lock is free or
    taken, and its initialisation and its release make it free whoever took it (pthread_spin_init, pthread_spin_unlock); [cnt] is never near
    the limit of an int since it stays below the number of nodes. *)
From Verif Require Import Res.
From Coq Require Import List Bool Arith.
Import ListNotations.

(** Where a call is: not called; before the test (303); before the initialisation of the lock (304); before [cnt = 0] (305); before the
    lock (308); before [res = cnt] (309); before the increment (310); before the unlock (311); returned. *)
Inductive rplace := RIdle | RTest | RInit | RZero | RLock | RRead | RInc (res : nat) | RUnlock (res : nat) | RDone (res : nat).
(** The counter ([None] is -1), the lock, the results in the order in which they were read, the calls. (300-301; the results are a ghost.) *)
Record rst := mkRst { rcnt : option nat; rheld : bool; rlog : list nat; rat : nat -> rplace }.
(** Static initialisation (300-301). *)
Definition rst0 : rst := mkRst None false [] (fun _ => RIdle).
(** A thread goes on (no code of its own in /repo: the program counter). *)
Definition rmove (s : rst) (t : nat) (p : rplace) : nat -> rplace := fun x => if Nat.eqb x t then p else rat s x.
(** Thread [t] goes on; a thread that has returned or not called yet calls.  [n]: number of nodes (topology.c 112-128). *)
Definition rstep (n : nat) (t : nat) (s : rst) : res rst :=
  match rat s t with
  | RIdle | RDone _ => Ok (mkRst (rcnt s) (rheld s) (rlog s) (rmove s t RTest))
  | RTest => Ok (mkRst (rcnt s) (rheld s) (rlog s) (rmove s t (match rcnt s with None => RInit | Some _ => RLock end)))  (* 303 *)
  | RInit => Ok (mkRst (rcnt s) false (rlog s) (rmove s t RZero))                                                       (* 304 *)
  | RZero => Ok (mkRst (Some 0) (rheld s) (rlog s) (rmove s t RLock))                                                   (* 305 *)
  | RLock => if rheld s then Ok s else Ok (mkRst (rcnt s) true (rlog s) (rmove s t RRead))                              (* 308 *)
  | RRead =>                                                                                                            (* 309 *)
      match rcnt s with
      | Some c => Ok (mkRst (rcnt s) (rheld s) (rlog s ++ [c]) (rmove s t (RInc c)))
      | None => UB
      end
  | RInc res =>                                                                                                         (* 310 *)
      match rcnt s with
      | Some c => if Nat.eqb n 0 then UB else Ok (mkRst (Some ((c + 1) mod n)) (rheld s) (rlog s) (rmove s t (RUnlock res)))
      | None => UB
      end
  | RUnlock res => Ok (mkRst (rcnt s) false (rlog s) (rmove s t (RDone res)))                                           (* 311-312 *)
  end.
