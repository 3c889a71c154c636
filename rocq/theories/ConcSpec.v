(** What a program with several threads sees: the blocks it holds, valid steps, executions.  See PosixSpec.v for blocks and chains. *)
From Verif Require Import Word Res Mem ChainModel ChainSpec RegionModel LightModel PosixModel PosixSpec ConcModel.
From Coq Require Import ZArith List Bool.
Import ListNotations.
Open Scope Z_scope.

(** The pointers of blocks that a call in progress has in its hands: the one to free or to move, the one just allocated. *)
Definition aptr (a : then_) : list Z := match a with ACopy _ p _ => [p] | ARet | AZero _ => [] end.
Definition vptr (v : option (Z * Z)) : list Z := match v with Some (r, _) => [r] | None => [] end.
Definition ptrs (k : task) : list Z :=
  match k with
  | KAlloc _ _ a | KAllocPurge _ _ _ a | KAllocDo _ _ _ a => aptr a
  | KZero r _ _ => [r]
  | KCopy _ p r _ => [p; r]
  | KFree p v | KFreePurge _ p v | KFreeFind _ p v | KFreeDo _ _ p v => p :: vptr v
  | KRealloc p _ | KReallocFind _ p _ | KReallocDo _ p _ => [p]
  | KExit | KExitPurge _ => []
  end.
Definition in_use (s : cst) (p : Z) : Prop := exists t j, cjobs s t = Some j /\ In p (ptrs (jk j)).
(** A block that the program holds: no call in progress has it in its hands. *)
Definition cholds (s : cst) (O : list obs) (i : nat) (b : blk) : Prop := holds (cy s) O i b /\ ~ in_use s (bp b).

(** A request of [n] bytes aligned on [d] (as in [ask_ok], without the answer of the system). *)
Definition size_ok (d n : Z) : Prop :=
  0 <= n /\ (d = 0 \/ exists k, 0 <= k /\ d = 2 ^ k) /\ n + d < 2 ^ 63 - 64 /\ (huge d n -> (asked d n + 47) mod 2097152 < 2097152 - 16).

(** The calls a correct program makes, by a thread that is not in a call. *)
Definition starts (e : env) (s : cst) (O : list obs) (c : pop) : Prop :=
  match c with
  | PMalloc t n _ => size_ok (ehook e (one n)) (one n)
  | PFree t p => p = 0 \/ exists i n d, cholds s O i (mkBlk p n d)
  | PRealloc t p n _ => 0 < efac e /\ (p = 0 \/ exists i m d, cholds s O i (mkBlk p m d) /\ d <= 1) /\ size_ok (ehook e (one n)) (one n)
  | PCalloc t a b _ => 0 <= a < 2 ^ 64 /\ 0 <= b < 2 ^ 64 /\ ytls (cy s) t <> Some 0%nat /\
      size_ok (ehook e (one ((a * b) mod 2 ^ 64))) (one ((a * b) mod 2 ^ 64))
  | PMemalign t d n _ => is_pow2 d = true -> size_ok d (one n)
  | PPosixMemalign t d n _ => d mod 8 = 0 /\ size_ok d (one n)
  | PValloc t n _ => size_ok 4096 (one n)
  | PExit t => True
  | PUse t i => exists k, chain (cy s) i = Some k /\ (i = 0%nat \/ kdes k = false /\ forall t', t' <> t -> ytls (cy s) t' <> Some i)
  | PWrite x v => exists i b u, cholds s O i b /\ size_of (cy s) i (bp b) u /\ bp b <= x < bp b + u
  end.
(** What a piece of a call supposes: room in the egg when a chain is created, a proper answer of mmap, and that the chain of an exiting
    thread has not been destroyed between its mark and its last purge (this can happen: see PropConc.v). *)
Definition goes (e : env) (y : sys) (O : list obs) (t : Z) (os : list (Z * Z) -> Z) (k : task) : Prop :=
  match k with
  | KAlloc _ _ _ | KFree _ _ | KRealloc _ _ => thread_ok e y O t
  | KAllocDo l d n _ => os_ok e y os (ask_size (d (one n)) (one n))
  | KReallocDo i p n => os_ok e y os (ask_size (ehook e n) n)
  | KExitPurge i => chain y i <> None
  | _ => True
  end.
Definition avalid (e : env) (s : cst) (O : list obs) (a : act) : Prop :=
  match a with
  | Call c => (forall t, caller c = Some t -> cjobs s t = None) /\ starts e s O c
  | Go t os => exists j, cjobs s t = Some j /\ goes e (cy s) O t os (jk j)
  end.

(** Executions: any interleaving of valid steps after start-up on any memory.  [G t]: the state in which the last call of thread [t] began. *)
Definition ghost (a : act) (s : cst) (O : list obs) (G : Z -> option (cst * list obs)) : Z -> option (cst * list obs) :=
  match a with Call c => match caller c with Some t => zupd G t (Some (s, O)) | None => G end | Go _ _ => G end.
Inductive creach (e : env) : cst -> list obs -> (Z -> option (cst * list obs)) -> Prop :=
| creach_init fuel m y : wf_env e -> sys_init fuel e m = Ok y -> creach e (mkCst y (fun _ => None)) (start_obs e y) (fun _ => None)
| creach_step s O G fuel a r s' : creach e s O G -> avalid e s O a -> crun fuel e a s = Ok (r, s') ->
    creach e s' (obs_after O (ytr (cy s'))) (ghost a s O G).

(** ** What steps and calls should do *)
Definition takes (a : act) (p : Z) : Prop := match a with Call c => frees c p | Go _ _ => False end.
Definition stores (a : act) (x : Z) : Prop := match a with Call c => writes c x | Go _ _ => False end.
Definition actor (a : act) : option Z := match a with Call c => caller c | Go t _ => Some t end.
(** The alignment a call should give, when it asks for one. *)
Definition aligned (e : env) (c : pop) : option Z :=
  match c with
  | PMalloc _ n _ => Some (ehook e (one n))
  | PCalloc _ a b _ => Some (ehook e (one ((a * b) mod 2 ^ 64)))
  | PMemalign _ d _ _ | PPosixMemalign _ d _ _ => Some d
  | PValloc _ _ _ => Some 4096
  | PRealloc _ _ _ _ | PFree _ _ | PExit _ | PUse _ _ | PWrite _ _ => None
  end.
(** An operation on chain [i] by thread [t] that no other operation on the chain can overlap: it holds the lock, or the chain is its own; or
    a registration in the queue, made for that. *)
Definition exclusive (y : sys) (t : Z) (i : nat) (c : op) : Prop :=
  is_shared y i = true \/ ytls y t = Some i \/ exists p, c = ORemote p.

(** What a call [c] of thread [t], begun in state [s0] with observations [O0], should return when it ends in state [y'] with [O']. *)
Definition result (e : env) (y' : sys) (O' : list obs) (t : Z) (c : pop) (r : option Z) (s0 : cst) (O0 : list obs) : Prop :=
  (gives c = None -> r = None \/ r = Some 0) /\
  forall r', r = Some r' ->
    (r' <> 0 -> exists i d n, holds y' O' i (mkBlk r' n d) /\ gives c = Some n /\ forall dd, aligned e c = Some dd -> d = dd /\ ytls y' t = Some i) /\
    (r' = 0 -> gives c <> None -> ytls y' t = Some 0%nat \/ exists p n os m d, c = PRealloc t p n os /\ holds (cy s0) O0 0 (mkBlk p m d)) /\
    (forall a b os, c = PCalloc t a b os -> r' <> 0 /\ forall x, r' <= x < r' + w64 (a * b) -> ymem y' x = 0) /\
    (forall p n os i m d u x, c = PRealloc t p n os -> r' <> 0 -> holds (cy s0) O0 i (mkBlk p m d) -> size_of (cy s0) i p u -> 0 <= x < Z.min u n ->
       ymem y' (r' + x) = ymem (cy s0) (p + x)).

(** The pieces that work on a chain itself (not through its queue). *)
Definition enters (k : task) (i : nat) : Prop :=
  match k with
  | KAllocPurge l _ _ _ | KAllocDo l _ _ _ | KFreePurge l _ _ => i = l
  | KFreeDo j direct _ _ => i = j /\ direct = true
  | KReallocDo j _ _ | KExitPurge j => i = j
  | _ => False
  end.
(** What happens after a state, as [later] in PosixSpec.v. *)
Inductive clater (e : env) (s : cst) (O : list obs) : list titem -> cst -> list obs -> Prop :=
| clater_here : clater e s O [] s O
| clater_step tr s1 O1 fuel a r s2 : clater e s O tr s1 O1 -> avalid e s1 O1 a -> crun fuel e a s1 = Ok (r, s2) ->
    clater e s O (ytr (cy s2) ++ tr) s2 (obs_after O1 (ytr (cy s2))).
