(** The public functions on the whole allocator: start-up, any number of threads and chains, the registry and the shared source.  Property
    theorems C30, C15, C34, C43; see PosixModel.v for the code and PosixSpec.v for the vocabulary. *)
From Verif Require Import Word Res Mem ChainModel ChainSpec LightModel PosixModel PosixSpec PosixMore PosixEx.
From Coq Require Import ZArith List Bool Lia.
Import ListNotations.
Open Scope Z_scope.

(** ** C30: free() goes to the chain that owns the block *)
(** The allocator starts, and every valid call returns: no undefined behaviour, no abort. *)
Theorem C30_start_safe : forall e m, wf_env e ->
  (exists f0 y, forall f, (f0 <= f)%nat -> sys_init f e m = Ok y) /\ forall f, sys_init f e m = OutOfFuel \/ exists y, sys_init f e m = Ok y.
Proof. exact start_safe. Qed.
Print Assumptions C30_start_safe.
Theorem C30_calls_safe : forall e y O c, sreach e y O -> pvalid e y O c ->
  (exists f0 a, forall f, (f0 <= f)%nat -> pexec f e c y = Ok a) /\ forall f, pexec f e c y = OutOfFuel \/ exists a, pexec f e c y = Ok a.
Proof. exact calls_safe. Qed.
Print Assumptions C30_calls_safe.

(** A block of chain [i] freed by thread [t]: one operation on chain [i] takes it back, directly if the chain is the egg, its owner has
    exited or it is the chain of [t], through the queue of the chain otherwise; no other operation gets the pointer. *)
Theorem C30_free_routed : forall e y O t p i n d k fuel er rp y', sreach e y O -> thread_ok e y O t -> holds y O i (mkBlk p n d) -> chain y i = Some k ->
  pexec fuel e (PFree t p) y = Ok (er, rp, y') ->
  exists t1 t2 c r evs, ytr y' = t1 ++ TCall i c r evs :: t2 /\
    ((i = 0%nat \/ kdes k = true \/ ytls y t = Some i) /\ c = OFree p \/ (i <> 0%nat /\ kdes k = false /\ ytls y t <> Some i) /\ c = ORemote p) /\
    (forall j c r evs, In (TCall j c r evs) (t1 ++ t2) -> ~ target c p).
Proof. exact free_routed. Qed.
Print Assumptions C30_free_routed.
(** A block that malloc returns belongs to the chain of the calling thread, which no other thread uses (unless it is the egg). *)
Theorem C30_malloc_own_chain : forall e y O t n os fuel er r y', sreach e y O -> pvalid e y O (PMalloc t n os) ->
  pexec fuel e (PMalloc t n os) y = Ok (er, Some r, y') -> r <> 0 ->
  exists i, holds y' (obs_after O (ytr y')) i (mkBlk r (one n) (ehook e (one n))) /\ ytls y' t = Some i /\ (forall j, ytls y t = Some j -> j = i) /\
    (ytls y t = None -> i = length (ych y)).
Proof. exact malloc_own. Qed.
Print Assumptions C30_malloc_own_chain.
Theorem C30_one_thread_per_chain : forall e y O t t' i, sreach e y O -> ytls y t = Some i -> ytls y t' = Some i -> i <> 0%nat -> t = t'.
Proof. exact one_thread. Qed.
Print Assumptions C30_one_thread_per_chain.
(** The chains never share memory, so a block has one owner. *)
Theorem C30_chains_disjoint : forall e y O i j ki kj r1 r2, sreach e y O -> i <> j -> chain y i = Some ki -> chain y j = Some kj ->
  In r1 (segs (oat O i)) -> In r2 (segs (oat O j)) -> apart r1 r2.
Proof. exact chains_disjoint. Qed.
Print Assumptions C30_chains_disjoint.
Theorem C30_block_place : forall e y O i b, sreach e y O -> holds y O i b ->
  exists u x z, size_of y i (bp b) u /\ bn b <= u /\ In (x, z) (segs (oat O i)) /\ x <= bp b /\ bp b + u <= x + z /\ (1 < bd b -> bp b mod bd b = 0).
Proof. exact block_place. Qed.
Print Assumptions C30_block_place.
Theorem C30_blocks_disjoint : forall e y O i j b b' u u', sreach e y O -> holds y O i b -> holds y O j b' -> size_of y i (bp b) u -> size_of y j (bp b') u' ->
  (i, b) <> (j, b') -> apart (bp b, u) (bp b', u').
Proof. exact blocks_disjoint. Qed.
Print Assumptions C30_blocks_disjoint.
(** What any call does to the blocks of the program: those it does not take back stay, with their size and their bytes; the only new one is
    the one returned, of the size asked, at an address where no block started. *)
Theorem C30_call_effect : forall e y O c fuel er rp y', sreach e y O -> pvalid e y O c -> pexec fuel e c y = Ok (er, rp, y') ->
  let O' := obs_after O (ytr y') in
  (forall j b u, holds y O j b -> ~ frees c (bp b) -> size_of y j (bp b) u ->
     holds y' O' j b /\ size_of y' j (bp b) u /\ forall x, bp b <= x < bp b + u -> ~ writes c x -> ymem y' x = ymem y x) /\
  (forall j b, holds y' O' j b -> (holds y O j b /\ ~ frees c (bp b)) \/ (rp = Some (bp b) /\ gives c = Some (bn b))) /\
  (forall r, rp = Some r -> r <> 0 -> (forall j b, holds y O j b -> ~ frees c (bp b) -> bp b <> r) /\ exists j b, holds y' O' j b /\ bp b = r /\ gives c = Some (bn b)).
Proof. exact call_effect. Qed.
Print Assumptions C30_call_effect.
(** NULL is returned only to a thread of the egg, for a block of the egg, or by memalign for a bad alignment. *)
Theorem C30_null_only_egg : forall e y O c fuel er y', sreach e y O -> pvalid e y O c -> pexec fuel e c y = Ok (er, Some 0, y') -> gives c <> None ->
  (exists t, by_thread c = Some t /\ ytls y t = Some 0%nat) \/ (exists b, holds y O 0 b /\ frees c (bp b)) \/
  (exists t d n os, c = PMemalign t d n os /\ is_pow2 d = false).
Proof. exact call_null. Qed.
Print Assumptions C30_null_only_egg.
(** realloc on the whole allocator, inside a chain or from one chain to another (see C10 for one chain). *)
Theorem C10_realloc_public : forall e y O t p n os fuel er r y' i m d u, sreach e y O -> pvalid e y O (PRealloc t p n os) -> holds y O i (mkBlk p m d) -> d <= 1 ->
  size_of y i p u -> n <> 0 -> pexec fuel e (PRealloc t p n os) y = Ok (er, Some r, y') -> r <> 0 ->
  (exists j d', holds y' (obs_after O (ytr y')) j (mkBlk r n d')) /\ forall x, 0 <= x < Z.min u n -> ymem y' (r + x) = ymem y (p + x).
Proof. exact realloc_public. Qed.
Print Assumptions C10_realloc_public.

(** Two threads; 12582960 (200 bytes of thread 2) was freed by thread 1 and waits in the queue of chain 2.  Freeing 12583184 goes through the
    queue if thread 1 does it, directly if thread 2 does it; thread 3 first gets a chain of its own. *)
Example C30_nontrivial : sreach e0 Y2 O2 /\ holds Y2 O2 2 (mkBlk 12583184 50 0) /\ holds Y2 O2 1 (mkBlk 8388656 100 0) /\ flags Y2 2 = Some (false, false) /\
  ytls Y2 1 = Some 1%nat /\ ytls Y2 2 = Some 2%nat /\ ytls Y2 3 = None /\ pend (oat O2 2) = [mkBlk 12582960 200 0] /\ ymem Y2 8388700 = 7 /\
  pvalid e0 Y2 O2 (PFree 1 12583184) /\ pvalid e0 Y2 O2 (PFree 3 12583184) /\ pvalid e0 Y2 O2 (PFree 1 77) /\ pvalid e0 Y2 O2 (PMalloc 3 5000 (fun _ => 16777216)) /\
  ytr (pafter 200 e0 (PFree 1 12583184) Y2) = [TCall 2 (ORemote 12583184) 0 []; TCall 1 OPurge 0 []] /\
  ytr (pafter 200 e0 (PFree 2 12583184) Y2) = [TCall 2 (OFree 12583184) 0 [EPut 12582912]; TCall 2 OPurge 0 []] /\
  ytr (pafter 200 e0 (PFree 3 12583184) Y2) = [TCall 2 (ORemote 12583184) 0 []; TCall 3 OPurge 0 []; TNew 3; TCall 0 (OAlloc 0 1680 None) 4197840 []].
Proof.
  split; [exact reach_2|]. split; [apply live_at_ok; vm_compute; tauto|]. split; [apply live_at_ok; vm_compute; tauto|]. split; [vm_compute; reflexivity|].
  split; [vm_compute; reflexivity|]. split; [vm_compute; reflexivity|]. split; [vm_compute; reflexivity|]. split; [vm_compute; reflexivity|]. split; [vm_compute; reflexivity|].
  split; [apply (pvalidb_ok e0 Y2 O2 (AFree 1 12583184)); vm_compute; reflexivity|]. split; [apply (pvalidb_ok e0 Y2 O2 (AFree 3 12583184)); vm_compute; reflexivity|].
  split; [apply (pvalidb_ok e0 Y2 O2 (AFree 1 77)); vm_compute; reflexivity|]. split; [apply (pvalidb_ok e0 Y2 O2 (AMalloc 3 5000 16777216)); vm_compute; reflexivity|].
  split; [vm_compute; reflexivity|]. split; vm_compute; reflexivity.
Qed.
Example C10_public_nontrivial : sreach e0 Y2 O2 /\ pvalid e0 Y2 O2 (PRealloc 2 8388656 5000 (fun _ => 16777216)) /\ size_of Y2 1 8388656 112 /\
  pexec 200 e0 (PRealloc 2 8388656 5000 (fun _ => 16777216)) Y2 = Ok (0, Some 12583264, pafter 200 e0 (PRealloc 2 8388656 5000 (fun _ => 16777216)) Y2) /\
  ymem (pafter 200 e0 (PRealloc 2 8388656 5000 (fun _ => 16777216)) Y2) (12583264 + 44) = 7.
Proof.
  split; [exact reach_2|]. split; [apply (pvalidb_ok e0 Y2 O2 (ARealloc 2 8388656 5000 16777216)); vm_compute; reflexivity|]. split; [apply size_num_ok; [vm_compute; reflexivity|lia]|].
  split; [apply panswer_at; vm_compute; reflexivity|vm_compute; reflexivity].
Qed.

(** ** C15: calloc *)
(** Without overflow of the product, for a thread that does not use the egg: a block of at least [a * b] bytes, all zero. *)
Theorem C15_calloc : forall e y O t a b os fuel er r y', sreach e y O -> pvalid e y O (PCalloc t a b os) -> a * b < 2 ^ 64 ->
  pexec fuel e (PCalloc t a b os) y = Ok (er, Some r, y') ->
  r <> 0 /\ (exists i u, holds y' (obs_after O (ytr y')) i (mkBlk r (one (a * b)) (ehook e (one (a * b)))) /\ size_of y' i r u /\ a * b <= u) /\
  forall x, r <= x < r + a * b -> ymem y' x = 0.
Proof. exact calloc_zero. Qed.
Print Assumptions C15_calloc.
(** On dirty memory: 12583000 holds a byte of the freed block of thread 2, which its calloc gets back. *)
Example C15_nontrivial : sreach e0 Y2 O2 /\ pvalid e0 Y2 O2 (PCalloc 2 25 8 (fun _ => 16777216)) /\ ymem Y2 12583000 = 9 /\
  pexec 200 e0 (PCalloc 2 25 8 (fun _ => 16777216)) Y2 = Ok (0, Some 12582960, pafter 200 e0 (PCalloc 2 25 8 (fun _ => 16777216)) Y2).
Proof.
  split; [exact reach_2|]. split; [apply (pvalidb_ok e0 Y2 O2 (ACalloc 2 25 8 16777216)); vm_compute; reflexivity|]. split; [vm_compute; reflexivity|].
  apply panswer_at; vm_compute; reflexivity.
Qed.
(** The property is false when the product overflows: calloc (2^63 + 8, 2) gives a block of 16 bytes ... *)
Theorem C15_overflow_refuted : sreach e0 Y2 O2 /\ pvalid e0 Y2 O2 (PCalloc 1 (2 ^ 63 + 8) 2 (fun _ => 16777216)) /\ exists r y',
  pexec 200 e0 (PCalloc 1 (2 ^ 63 + 8) 2 (fun _ => 16777216)) Y2 = Ok (0, Some r, y') /\ r <> 0 /\ size_of y' 1 r 16.
Proof.
  split; [exact reach_2|]. split; [apply (pvalidb_ok e0 Y2 O2 (ACalloc 1 (2 ^ 63 + 8) 2 16777216)); vm_compute; reflexivity|].
  exists 8389104, (pafter 200 e0 (PCalloc 1 (2 ^ 63 + 8) 2 (fun _ => 16777216)) Y2). split; [apply panswer_at; vm_compute; reflexivity|]. split; [lia|].
  apply size_num_ok; [vm_compute; reflexivity|lia].
Qed.
Print Assumptions C15_overflow_refuted.
(** ... and it is not checked that memory was obtained: a thread that has exited uses the egg, which has 2 MB; its calloc of more writes
    through NULL instead of returning it. *)
Theorem C15_null_refuted : sreach e0 Y3 O3 /\ ytls Y3 1 = Some 0%nat /\ pexec 200 e0 (PCalloc 1 1000 4000 (fun _ => 16777216)) Y3 = UB /\
  panswer 200 e0 (PMalloc 1 4000000 (fun _ => 16777216)) Y3 = Some (0, Some 0).
Proof. split; [exact reach_3|]. split; [vm_compute; reflexivity|]. split; vm_compute; reflexivity. Qed.
Print Assumptions C15_null_refuted.

(** ** C34: posix_memalign *)
(** Boundaries multiple of 8 (powers of two, or 0): no error code, and the pointer stored is aligned, of at least the size asked; NULL only in
    the egg. *)
Theorem C34_aligned : forall e y O t d n os fuel er rp y', sreach e y O -> pvalid e y O (PPosixMemalign t d n os) ->
  pexec fuel e (PPosixMemalign t d n os) y = Ok (er, rp, y') ->
  er = 0 /\ exists r, rp = Some r /\ (r = 0 -> ytls y t = Some 0%nat) /\
    (r <> 0 -> exists i u, holds y' (obs_after O (ytr y')) i (mkBlk r (one n) d) /\ size_of y' i r u /\ n <= u /\ (1 < d -> r mod d = 0)).
Proof. exact posix_aligned. Qed.
Print Assumptions C34_aligned.
(** The powers of two that are not multiples of 8 are rejected, without effect. *)
Theorem C34_small_rejected : forall d fuel e t n os y, d mod 8 <> 0 -> (exists k, 0 <= k /\ d = 2 ^ k) ->
  pexec fuel e (PPosixMemalign t d n os) y = Ok (EINVAL, None, yset_tr y []).
Proof. exact posix_small. Qed.
Print Assumptions C34_small_rejected.
(** But no boundary that is not a power of two is ever rejected ... *)
Theorem C34_not_pow2_refuted : forall d fuel e t n os y er rp y', 0 <= d -> (forall k, 0 <= k -> d <> 2 ^ k) ->
  pexec fuel e (PPosixMemalign t d n os) y = Ok (er, rp, y') -> er = 0 /\ exists r, rp = Some r.
Proof. exact posix_accepts. Qed.
Print Assumptions C34_not_pow2_refuted.
(** ... (for instance 24 and 7, and 0), and ENOMEM (12) is never returned, even when there is no memory. *)
Theorem C34_codes_refuted : forall d fuel e t n os y er rp y', pexec fuel e (PPosixMemalign t d n os) y = Ok (er, rp, y') -> er = 0 \/ er = EINVAL.
Proof. exact posix_codes. Qed.
Print Assumptions C34_codes_refuted.
Example C34_nontrivial : sreach e0 Y2 O2 /\ pvalid e0 Y2 O2 (PPosixMemalign 1 4096 100 (fun _ => 16777216)) /\
  panswer 200 e0 (PPosixMemalign 1 4096 100 (fun _ => 16777216)) Y2 = Some (0, Some 8392704) /\
  panswer 200 e0 (PPosixMemalign 1 24 100 (fun _ => 16777216)) Y2 = Some (0, Some 8389104) /\
  panswer 200 e0 (PPosixMemalign 1 7 100 (fun _ => 16777216)) Y2 = Some (0, Some 8389115) /\
  sreach e0 Y3 O3 /\ panswer 200 e0 (PPosixMemalign 1 64 4000000 (fun _ => 16777216)) Y3 = Some (0, Some 0).
Proof.
  split; [exact reach_2|]. split; [apply (pvalidb_ok e0 Y2 O2 (APosix 1 4096 100 16777216)); vm_compute; reflexivity|]. split; [vm_compute; reflexivity|].
  split; [vm_compute; reflexivity|]. split; [vm_compute; reflexivity|]. split; [exact reach_3|vm_compute; reflexivity].
Qed.

(** ** C43: a chain marked for destruction *)
(** One call: a chain is destroyed exactly when it is marked (by this call or before), had segments and has none left; its structure goes
    back to the egg just before, once, and no operation on it follows. *)
Theorem C43_destroyed_when_empty : forall e y O c fuel er rp y' i k, sreach e y O -> pvalid e y O c -> pexec fuel e c y = Ok (er, rp, y') ->
  chain y i = Some k -> i <> 0%nat ->
  let O' := obs_after O (ytr y') in
  (In (TDestroy i) (ytr y') <-> dying y c i k /\ segs (oat O i) <> [] /\ segs (oat O' i) = []) /\ (chain y' i = None <-> In (TDestroy i) (ytr y')) /\
  (forall k', chain y' i = Some k' -> (kdes k' = true <-> dying y c i k)) /\
  (In (TDestroy i) (ytr y') -> exists t1 r t2, ytr y' = t1 ++ TDestroy i :: TCall 0 (OFree (cpool (kg k))) r [] :: t2 /\ idle i t1 /\ ~ In (TDestroy i) t2).
Proof. exact destroy_step. Qed.
Print Assumptions C43_destroyed_when_empty.
(** Any history after the mark, of a chain that had segments: destroyed exactly once, when the last segment went back; no thread uses it. *)
Theorem C43_marked_once : forall e y O tr y' O' i k, sreach e y O -> chain y i = Some k -> i <> 0%nat -> kdes k = true -> segs (oat O i) <> [] -> later e y O tr y' O' ->
  (chain y' i = None <-> segs (oat O' i) = []) /\ (In (TDestroy i) tr <-> segs (oat O' i) = []) /\ (forall t, ytls y' t <> Some i) /\
  (segs (oat O' i) = [] -> exists t1 r t2, tr = t1 ++ TDestroy i :: TCall 0 (OFree (cpool (kg k))) r [] :: t2 /\ idle i t1 /\ ~ In (TDestroy i) t2).
Proof. exact marked_once. Qed.
Print Assumptions C43_marked_once.
(** Any history after the destruction: no operation on the chain, no thread uses it. *)
Theorem C43_never_used_again : forall e y O tr y' O' i, sreach e y O -> later e y O tr y' O' -> (i < length (ych y))%nat -> chain y i = None ->
  chain y' i = None /\ idle i tr /\ forall t, ytls y' t <> Some i.
Proof. exact later_dead. Qed.
Print Assumptions C43_never_used_again.
(** The property is false for a chain that has no segment when it is marked: it is never destroyed. *)
Theorem C43_empty_never_refuted : forall e y O tr y' O' i k, sreach e y O -> chain y i = Some k -> i <> 0%nat -> kdes k = true -> segs (oat O i) = [] -> later e y O tr y' O' ->
  (exists k', chain y' i = Some k' /\ kdes k' = true /\ segs (oat O' i) = []) /\ ~ In (TDestroy i) tr.
Proof. exact empty_never. Qed.
Print Assumptions C43_empty_never_refuted.
Example C43_empty_nontrivial : sreach e0 Y4 O4 /\ flags Y4 1 = Some (true, true) /\ segs (oat O4 1) = [] /\ ytls Y4 1 = Some 0%nat.
Proof. split; [exact reach_4|]. split; [vm_compute; reflexivity|]. split; vm_compute; reflexivity. Qed.
(** It is also false that the structure is not used after its destruction: when the last block is a small one the free that destroys the
    chain then releases the lock of the chain, in the structure just given back. *)
Theorem C43_unlock_after_refuted : sreach e0 Y3 O3 /\ flags Y3 1 = Some (true, true) /\ segs (oat O3 1) = [(8388608, 2097152)] /\ pvalid e0 Y3 O3 (PFree 2 8388656) /\
  ytr (pafter 200 e0 (PFree 2 8388656) Y3) = [TUnlock 1; TDestroy 1; TCall 0 (OFree 4194448) 0 []; TCall 1 (OFree 8388656) 0 [EPut 8388608]; TCall 2 OPurge 0 []].
Proof.
  split; [exact reach_3|]. split; [vm_compute; reflexivity|]. split; [vm_compute; reflexivity|]. split; [apply (pvalidb_ok e0 Y3 O3 (AFree 2 8388656)); vm_compute; reflexivity|].
  vm_compute; reflexivity.
Qed.
Print Assumptions C43_unlock_after_refuted.
