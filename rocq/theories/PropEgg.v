(** C76: the memory of the chain structures stays mapped as long as the allocator uses it, and what the egg gets back it can use again. *)
From Verif Require Import Word Res Mem ChainModel ChainSpec LightModel PosixModel PosixSpec PosixEx EggModel EggSpec EggEx EggProofs.
From Coq Require Import ZArith List Bool Lia.
Import ListNotations.
Open Scope Z_scope.

(** Without hwloc: the structure of every chain is in the static data of the library, whatever happens later. *)
Theorem C76_static : forall e y O i k x, sreach e y O -> chain y i = Some k -> cpool (kg k) <= x < cpool (kg k) + CHAIN_SIZE ->
  (eegg e <= x < eegg e + CHAIN_SIZE) \/ (ebuf e <= x < ebuf e + EGG_MEM).
Proof. exact struct_static. Qed.
Print Assumptions C76_static.
Example C76_static_nontrivial : sreach e0 Y3 O3 /\ pool_at Y3 2 = Some 4196144.
Proof. split; [exact reach_3|vm_compute; reflexivity]. Qed.

(** With hwloc it is false: the free that destroys a chain gives the segment that holds the structure to the source, which unmaps it, and then
    releases the lock of the chain, in that structure. *)
Theorem C76_unmapped_refuted : hreach e7 (H7 e7) (Q7 e7) /\ pool_at (H7 e7) 2 = Some 8388656 /\ flags (H7 e7) 2 = Some (true, true) /\
  pvalid e7 (H7 e7) (Q7 e7) (PFree 9 12582960) /\ panswer 200 e7 (PFree 9 12582960) (H7 e7) = Some (0, None) /\
  ytr (pafter 200 e7 (PFree 9 12582960) (H7 e7)) =
    [TUnlock 2; TDestroy 2; TCall 0 (OFree 8388656) 0 [EPut 8388608]; TCall 2 (OFree 12582960) 0 [EPut 12582912]; TCall 0 OPurge 0 []] /\
  (forall x, 8388656 <= x < 8388656 + CHAIN_SIZE -> mapped e7 (H7 e7) x) /\
  forall x, 8388656 <= x < 8388656 + CHAIN_SIZE -> ~ mapped e7 (pafter 200 e7 (PFree 9 12582960) (H7 e7)) x.
Proof. exact struct_unmapped. Qed.
Print Assumptions C76_unmapped_refuted.
(** With the default settings the segment is in the cache of the source: the next request of any thread gets it while the lock is still to be
    released. *)
Theorem C76_cached_refuted : hreach e0 (H7 e0) (Q7 e0) /\ pool_at (H7 e0) 2 = Some 8388656 /\ pvalid e0 (H7 e0) (Q7 e0) (PFree 9 12582960) /\
  ytr (pafter 200 e0 (PFree 9 12582960) (H7 e0)) =
    [TUnlock 2; TDestroy 2; TCall 0 (OFree 8388656) 0 [EPut 8388608]; TCall 2 (OFree 12582960) 0 [EPut 12582912]; TCall 0 OPurge 0 []] /\
  lcache (ysrc (pafter 200 e0 (PFree 9 12582960) (H7 e0))) = 8388608.
Proof. exact struct_cached. Qed.
Print Assumptions C76_cached_refuted.

(** With hwloc it is also false that a freed block can be used again: a block of more than 1 MB taken at start-up, before the source is bound, is
    taken for a whole segment when it is freed, and left as it is.  The egg then asks the source for a request that fits in it; that block
    goes back to the source when it is freed. *)
Theorem C76_early_refuted : hreach e0 H8 Q8 /\ holds H8 Q8 0 (mkBlk 4194448 1500000 0) /\ pvalid e0 H8 Q8 (PFree 1 4194448) /\
  panswer 200 e0 (PFree 1 4194448) H8 = Some (0, None) /\
  ytr (pafter 200 e0 (PFree 1 4194448) H8) = [TCall 0 (OFree 4194448) 0 []; TCall 0 OPurge 0 []] /\
  free_in (ymem (pafter 200 e0 (PFree 1 4194448) H8)) (ebuf e0, EGG_MEM) = free_in (ymem H8) (ebuf e0, EGG_MEM) /\
  panswer 200 e0 (PMalloc 1 700000 (fun _ => 8388608)) (pafter 200 e0 (PFree 1 4194448) H8) = Some (0, Some 8388656) /\
  ytr (pafter 200 e0 (PFree 1 8388656) (pafter 200 e0 (PMalloc 1 700000 (fun _ => 8388608)) (pafter 200 e0 (PFree 1 4194448) H8))) =
    [TUnlock 0; TCall 0 (OFree 8388656) 0 [EPut 8388608]; TCall 0 OPurge 0 []].
Proof. exact early_lost. Qed.
Print Assumptions C76_early_refuted.
