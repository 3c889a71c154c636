(** What a program sees of the allocator as a whole: the blocks of each chain, valid public calls, histories.  [oat O i] are the observations of
    chain [i] (ChainSpec.v): live blocks, blocks freed by other threads and not yet collected, segments. *)
From Verif Require Import Word Res Mem ChainModel ChainSpec LightModel PosixModel.
From Coq Require Import ZArith List Bool.
Import ListNotations.
Open Scope Z_scope.

Definition obs0 : obs := mkObs [] [] [].
Definition oat (O : list obs) (i : nat) : obs := nth i O obs0.

(** How what happened in a call changes what is observed ([ytr] holds it latest first). *)
Definition obs1 (t : titem) (O : list obs) : list obs :=
  match t with
  | TCall i c r evs => set_nth i (next (oat O i) c r evs) O
  | TNew _ => O ++ [obs0]
  | TDestroy _ | TUnlock _ => O
  end.
Definition obs_after (O : list obs) (tr : list titem) : list obs := fold_right obs1 O tr.

(** Blocks of the egg that the allocator itself uses: the structures of the source and of the chains. *)
Definition reserved (y : sys) (p : Z) : Prop := p = ylight y \/ exists i k, i <> 0%nat /\ chain y i = Some k /\ cpool (kg k) = p.
(** A block that the program holds. *)
Definition holds (y : sys) (O : list obs) (i : nat) (b : blk) : Prop :=
  (exists k, chain y i = Some k) /\ In b (live (oat O i)) /\ ~ reserved y (bp b).
(** Size of the memory behind a pointer of chain [i]. *)
Definition size_of (y : sys) (i : nat) (p u : Z) : Prop := exists k, chain y i = Some k /\ usable (set_mem (kst k) (ymem y)) p u.

(** The static data of the allocator: the structure and the buffer of the egg lie apart in user space, above 4 MB for the buffer; the hook
    gives no alignment or a power of two up to 1 MB / 2. *)
Definition wf_env (e : env) : Prop :=
  0 < eegg e /\ eegg e + CHAIN_SIZE <= 2 ^ 47 /\ 4194304 <= ebuf e /\ ebuf e + EGG_MEM <= 2 ^ 47 /\ ebuf e mod 8 = 0 /\
  apart (eegg e, CHAIN_SIZE) (ebuf e, EGG_MEM) /\
  forall n, ehook e n = 0 \/ exists k, 0 <= k <= 19 /\ ehook e n = 2 ^ k.

(** A mapping the system may give: whole pages of user space above 4 MB, apart from everything mapped. *)
Definition os_ok (e : env) (y : sys) (os : list (Z * Z) -> Z) (z : Z) : Prop :=
  forall l, incl l (lmap (ysrc y)) ->
    4194304 <= os l /\ os l mod 4096 = 0 /\ os l + z <= 2 ^ 47 /\
    forall r, In r ((eegg e, CHAIN_SIZE) :: (ebuf e, EGG_MEM) :: l) -> apart (os l, z) r.
(** The egg has room for the structure of one more chain. *)
Definition egg_room (e : env) (y : sys) (O : list obs) : Prop :=
  exists w c, In (w, c) (free_in (ymem y) (ebuf e, EGG_MEM)) /\ room (ehook e CHAIN_SIZE) CHAIN_SIZE <= c.
(** A call by thread [t]: if it has no chain yet there is room to create one. *)
Definition thread_ok (e : env) (y : sys) (O : list obs) (t : Z) : Prop := ytls y t = None -> egg_room e y O.
(** A request of [n] bytes aligned on [d] (see [request_ok] in ChainSpec.v for the excluded sizes). *)
Definition ask_ok (e : env) (y : sys) (d n : Z) (os : list (Z * Z) -> Z) : Prop :=
  0 <= n /\ (d = 0 \/ exists k, 0 <= k /\ d = 2 ^ k) /\ n + d < 2 ^ 63 - 64 /\
  (huge d n -> (asked d n + 47) mod 2097152 < 2097152 - 16) /\ os_ok e y os (ask_size d n).
Definition one (n : Z) : Z := if n =? 0 then 1 else n.
(** An address in no segment. *)
Definition foreign (y : sys) (O : list obs) (p : Z) : Prop :=
  0 <= p < 2 ^ 48 /\ forall i k b z, chain y i = Some k -> In (b, z) (segs (oat O i)) -> ~ b <= p < b + z.

Definition pvalid (e : env) (y : sys) (O : list obs) (c : pop) : Prop :=
  match c with
  | PMalloc t n os => thread_ok e y O t /\ ask_ok e y (ehook e (one n)) (one n) os
  | PFree t p => thread_ok e y O t /\
      (p = 0 \/ (exists i n d, holds y O i (mkBlk p n d)) \/ (estrict e = false /\ foreign y O p))
  | PRealloc t p n os => thread_ok e y O t /\ 0 < efac e /\
      (p = 0 \/ exists i m d, holds y O i (mkBlk p m d) /\ d <= 1) /\ ask_ok e y (ehook e (one n)) (one n) os
  | PCalloc t a b os => thread_ok e y O t /\ 0 <= a < 2 ^ 64 /\ 0 <= b < 2 ^ 64 /\ ytls y t <> Some 0%nat /\
      ask_ok e y (ehook e (one ((a * b) mod 2 ^ 64))) (one ((a * b) mod 2 ^ 64)) os
  | PMemalign t d n os => is_pow2 d = true -> thread_ok e y O t /\ ask_ok e y d (one n) os
  | PPosixMemalign t d n os => d mod 8 = 0 /\ thread_ok e y O t /\ ask_ok e y d (one n) os
  | PValloc t n os => thread_ok e y O t /\ ask_ok e y 4096 (one n) os
  | PExit t => True
  | PUse t i => exists k, chain y i = Some k /\ (i = 0%nat \/ kdes k = false /\ forall t', t' <> t -> ytls y t' <> Some i)
  | PWrite x v => exists i b u, holds y O i b /\ size_of y i (bp b) u /\ bp b <= x < bp b + u
  end.

(** Histories: the state after start-up on any memory, then any sequence of valid calls. *)
Definition start_obs (e : env) (y : sys) : list obs :=
  [mkObs [mkBlk (ylight y) LIGHT_SIZE (ehook e LIGHT_SIZE)] [] [(ebuf e, EGG_MEM)]].
Inductive sreach (e : env) : sys -> list obs -> Prop :=
| sreach_init fuel m y : wf_env e -> sys_init fuel e m = Ok y -> sreach e y (start_obs e y)
| sreach_step y O fuel c r y' : sreach e y O -> pvalid e y O c -> pexec fuel e c y = Ok (r, y') -> sreach e y' (obs_after O (ytr y')).

(** ** What a call should do *)
(** The block it takes back from the program; the bytes it may change in blocks that stay; the size of the block it returns; the thread. *)
Definition frees (c : pop) (p : Z) : Prop := match c with PFree _ q | PRealloc _ q _ _ => p = q | _ => False end.
Definition writes (c : pop) (x : Z) : Prop := match c with PWrite z _ => x = z | _ => False end.
Definition gives (c : pop) : option Z :=
  match c with
  | PMalloc _ n _ | PMemalign _ _ n _ | PPosixMemalign _ _ n _ | PValloc _ n _ => Some (one n)
  | PRealloc _ p n _ => if negb (p =? 0) && (n =? 0) then None else Some (one n)
  | PCalloc _ a b _ => Some (one ((a * b) mod 2 ^ 64))
  | PFree _ _ | PExit _ | PUse _ _ | PWrite _ _ => None
  end.
Definition by_thread (c : pop) : option Z :=
  match c with
  | PMalloc t _ _ | PFree t _ | PRealloc t _ _ _ | PCalloc t _ _ _ | PMemalign t _ _ _ | PPosixMemalign t _ _ _ | PValloc t _ _ | PExit t | PUse t _ => Some t
  | PWrite _ _ => None
  end.
(** A chain marked for destruction, by an earlier call or by this one. *)
Definition dying (y : sys) (c : pop) (i : nat) (k : chn) : Prop := kdes k = true \/ exists t, c = PExit t /\ ytls y t = Some i.
(** No operation on chain [i] (the release of its lock is not one of them). *)
Definition idle (i : nat) (tr : list titem) : Prop :=
  forall x, In x tr -> match x with TCall j _ _ _ | TNew j | TDestroy j => j <> i | TUnlock _ => True end.
(** What happens after a state: all that the calls did (latest first), the state and the observations reached. *)
Inductive later (e : env) (y : sys) (O : list obs) : list titem -> sys -> list obs -> Prop :=
| later_here : later e y O [] y O
| later_step tr y1 O1 fuel c r y2 : later e y O tr y1 O1 -> pvalid e y1 O1 c -> pexec fuel e c y1 = Ok (r, y2) ->
    later e y O (ytr y2 ++ tr) y2 (obs_after O1 (ytr y2)).
