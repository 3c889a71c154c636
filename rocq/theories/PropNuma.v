(** C36, C48: page ranges and scans of the registry for NUMA migration and statistics. *)
From Verif Require Import Word Res RegionModel RegionSpec RegionProofs NumaModel NumaSpec NumaProofs.
From Coq Require Import ZArith List Bool Lia.
Import ListNotations.
Open Scope Z_scope.

(** C36. The range handed to the system for the migration of a block is made of whole pages, covers it, and holds no page that does
    not meet the block. *)
Theorem C36_migrate_covers : forall a n, 0 <= a -> 0 < n -> a + n <= 2 ^ 64 - 4096 -> let (a', n') := migrate_range a n in
  a' mod 4096 = 0 /\ n' mod 4096 = 0 /\ a - 4096 < a' <= a /\ a + n <= a' + n' < a + n + 4096.
Proof. exact migrate_covers. Qed.
Print Assumptions C36_migrate_covers.
Example C36_nontrivial : migrate_range 5000 8000 = (4096, 12288) /\ stat_pages 8192 12288 = (2, 5).
Proof. split; vm_compute; reflexivity. Qed.

(** C36. The pages counted by the statistics are those of the block, for blocks made of whole pages (those the chains ask for). *)
Theorem C36_stat_pages : forall a n, 0 <= a -> 0 < n -> a + n < 2 ^ 64 -> a mod 4096 = 0 -> n mod 4096 = 0 ->
  let (f, l) := stat_pages a n in f * 4096 = a /\ l * 4096 = a + n.
Proof. exact stat_exact. Qed.
Print Assumptions C36_stat_pages.

(** C36. For any other block the statistics miss its last page. *)
Theorem C36_stat_misses_last_page_refuted : forall a n, 0 <= a -> 0 < n -> a + n < 2 ^ 64 -> let (f, l) := stat_pages a n in
  f * 4096 <= a /\ (a + n <= l * 4096 <-> a mod 4096 = 0 /\ n mod 4096 = 0).
Proof. exact stat_covers_iff. Qed.
Print Assumptions C36_stat_misses_last_page_refuted.

(** C48. The scan of the registry on behalf of a chain treats all its segments and no other memory, and never reads the header of a
    segment that was given back.  Missing for the full statement: that a segment is treated once (false, below). *)
Theorem C48_scan_partial : forall s L c, rreach s L -> exists l, scan c s = Ok l /\ (forall b sz, In (b, sz) l <-> In (mkSeg b sz c) L).
Proof. exact scan_exact. Qed.
Print Assumptions C48_scan_partial.

(** C48. A segment is treated once for each 2 MB of it. *)
Theorem C48_treated_per_slot_refuted : forall s L c b sz, rreach s L -> In (mkSeg b sz c) L ->
  exists l, scan c s = Ok l /\ visits (b, sz) l = sz / 2097152.
Proof. exact scan_visits. Qed.
Print Assumptions C48_treated_per_slot_refuted.

(** C48. So the number of pages reported for a chain with one segment is too large, by a factor that grows with the segment. *)
Theorem C48_pages_overcounted_refuted : forall s b sz c, rreach s [mkSeg b sz c] -> total_pages c s = Ok (sz / 4096 * (sz / 2097152)).
Proof. exact pages_overcounted. Qed.
Print Assumptions C48_pages_overcounted_refuted.

(** Two chains; one has a segment of 4 MB, not aligned, and reports 2048 pages for it. *)
Example C48_nontrivial : rreach (rend [RSet 7 5242880 4194304; RSet 8 9437184 2097152]) [mkSeg 9437184 2097152 8; mkSeg 5242880 4194304 7] /\
  scan 7 (rend [RSet 7 5242880 4194304; RSet 8 9437184 2097152]) = Ok [(5242880, 4194304); (5242880, 4194304)] /\
  scan 8 (rend [RSet 7 5242880 4194304; RSet 8 9437184 2097152]) = Ok [(9437184, 2097152)].
Proof.
  split; [|split; vm_compute; reflexivity]. apply (rend_reach [RSet 7 5242880 4194304; RSet 8 9437184 2097152]); [|vm_compute; reflexivity].
  cbn. unfold seg_ok, apart. cbn. repeat split; try discriminate; try lia; try contradiction. intros y [<-|[]]. cbn. lia.
Qed.
