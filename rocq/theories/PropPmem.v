(** C35, C47: the persistent memory pool. *)
From Verif Require Import Word Res PmemModel PmemSpec PmemProofs.
From Coq Require Import ZArith List Bool Lia.
Import ListNotations.
Open Scope Z_scope.

(** C35. Blocks handed out by a pool lie in it and do not overlap, after any history of requests, releases and stores.
    Missing for the full statement: requests of 2^64 - (pool size) bytes or more, see the refutation below. *)
Theorem C35_disjoint_partial : forall b mx d m L, ppool b mx -> preach (2 ^ 64 - mx) b mx d m L ->
  ForallOrdPairs papart L /\ forall x, In x L -> pin b mx x.
Proof. exact blocks_disjoint. Qed.
Print Assumptions C35_disjoint_partial.

(** C35. A request returns NULL exactly when the bytes already handed out leave no room for it. Same restriction. *)
Theorem C35_null_when_full_partial : forall b mx d m L n r d' m', ppool b mx -> preach (2 ^ 64 - mx) b mx d m L -> 0 <= n < 2 ^ 64 - mx ->
  prun (PAlloc n) d m = (r, d', m') -> (r = 0 <-> mx < psum L + n) /\ m' = m.
Proof. exact alloc_fits. Qed.
Print Assumptions C35_null_when_full_partial.

(** C35. Releasing a block clears its bytes and leaves the other blocks alone. *)
Theorem C35_release_partial : forall b mx d m L p n r d' m' y a, ppool b mx -> preach (2 ^ 64 - mx) b mx d m L -> In (p, n) L ->
  prun (PRelease p n) d m = (r, d', m') -> (p <= a < p + n -> m' a = 0) /\
  (In y L -> y <> (p, n) -> fst y <= a < fst y + snd y -> m' a = m a).
Proof. exact release_exact. Qed.
Print Assumptions C35_release_partial.

(** Two blocks of 4096 and 100 bytes in a pool of 8192, the first released, then a request that does not fit. *)
Example C35_nontrivial : exists d m, ppool 65536 8192 /\ preach (2 ^ 64 - 8192) 65536 8192 d m [(69632, 100); (65536, 4096)] /\
  prun (PAlloc 4000) d m = (0, d, m).
Proof.
  exists (mkPd 4196 8192 69732 65536), (pfree 65536 4096 (fun _ => 7)). split; [unfold ppool; cbn; lia|]. split; [|reflexivity].
  apply (preach_step _ _ _ (mkPd 4196 8192 69732 65536) (fun _ => 7) [(69632, 100); (65536, 4096)] (PRelease 65536 4096) 0); [|cbn; tauto|reflexivity].
  apply (preach_step _ _ _ (mkPd 4096 8192 69632 65536) (fun _ => 7) [(65536, 4096)] (PAlloc 100) 69632); [|cbn; lia|reflexivity].
  apply (preach_step _ _ _ (mkPd 0 8192 65536 65536) (fun _ => 7) [] (PAlloc 4096) 65536); [|cbn; lia|reflexivity].
  apply preach_init.
Qed.

(** C35. The size test wraps: after any first block of [n] bytes, a request of 2^64 - n bytes is granted instead of refused, and the
    block after it is the first one again. *)
Theorem C35_wrap_refuted : forall b mx n m, ppool b mx -> 0 < n <= mx -> exists d1 d2,
  prun (PAlloc n) (mkPd 0 mx b b) m = (b, d1, m) /\
  prun (PAlloc (2 ^ 64 - n)) d1 m = (b + n, d2, m) /\
  prun (PAlloc n) d2 m = (b, d1, m).
Proof. exact wrap_rewinds. Qed.
Print Assumptions C35_wrap_refuted.

(** C47. A pool is the size asked for, rounded up to a page, for requests below 16 MB.
    Missing for the full statement: larger requests, which may get less than they ask for (below). *)
Theorem C47_pool_size_partial : forall k x base, 0 <= k <= 30 -> 0 <= x < 2 ^ 24 -> base <> 0 ->
  exists v, create k x base = Ok (Some (mkPd 0 v base base), v) /\ page_ceiling (2 ^ k) x v.
Proof. exact create_small. Qed.
Print Assumptions C47_pool_size_partial.
(** Beyond 16 MB: right for whole pages below 2^24 pages (64 GB), and off by at most one part in 2^24 else. *)
Theorem C47_pool_pages : forall k x base, 0 <= k <= 30 -> 0 <= x < 2 ^ (k + 24) -> x mod 2 ^ k = 0 -> base <> 0 -> create k x base = Ok (Some (mkPd 0 x base base), x).
Proof. exact create_exact. Qed.
Print Assumptions C47_pool_pages.
Theorem C47_pool_near : forall k x base, 0 <= k <= 30 -> 0 <= x < 2 ^ 63 -> base <> 0 ->
  exists v, create k x base = Ok (Some (mkPd 0 v base base), v) /\ v mod 2 ^ k = 0 /\ x - x / 2 ^ 24 <= v < x + x / 2 ^ 24 + 2 ^ k.
Proof. exact create_near. Qed.
Print Assumptions C47_pool_near.
Example C47_near_nontrivial : create 12 (2 ^ 40 + 98304) 65536 = Ok (Some (mkPd 0 (2 ^ 40 + 131072) 65536 65536), 2 ^ 40 + 131072) /\
  create 12 (2 ^ 35 + 4096) 65536 = Ok (Some (mkPd 0 (2 ^ 35 + 4096) 65536 65536), 2 ^ 35 + 4096).
Proof. split; vm_compute; reflexivity. Qed.
Example C47_nontrivial : create 12 10000001 65536 = Ok (Some (mkPd 0 10002432 65536 65536), 10002432).
Proof. vm_compute. reflexivity. Qed.

(** C47. The size goes through a [float]: a pool of 2^e + 1 bytes gets 2^e bytes only, from 16 MB on. *)
Theorem C47_float_rounding_refuted : forall k e base, 0 <= k <= e -> 24 <= e <= 62 -> base <> 0 ->
  create k (2 ^ e + 1) base = Ok (Some (mkPd 0 (2 ^ e) base base), 2 ^ e).
Proof. exact create_too_small. Qed.
Print Assumptions C47_float_rounding_refuted.

(** C47. When mmap fails the pool is still created, at address -1. *)
Theorem C47_failed_map_refuted : exists sz d, create 12 65536 MAP_FAILED = Ok (Some d, sz) /\ fst (pmalloc 16 d) = MAP_FAILED.
Proof. exists 65536, (mkPd 0 65536 MAP_FAILED MAP_FAILED). split; vm_compute; reflexivity. Qed.
Print Assumptions C47_failed_map_refuted.
