(** C61: the NUMA statistics count each page once, on its node. *)
From Verif Require Import Word Res NumaModel NumaStatModel NumaStatSpec NumaStatProofs.
From Coq Require Import ZArith List Bool Lia.
Import ListNotations.
Open Scope Z_scope.

Theorem C61_counts : forall fuel w t s ptr size, readable w t ptr size -> 0 <= ptr -> 0 <= size < W64 -> ptr + size <= W64 -> size / 4096 <= 524288 -> size / 4096 <= Z.of_nat fuel ->
  exists s', stat_get fuel w s ptr size = Ok s' /\ st_total s' = size / 4096 /\ st_mapped s' = count (present t ptr) (Z.to_nat (size / 4096)) /\
    forall k, 0 <= k <= MAXNODE -> st_pages s' k = count (present_on w t ptr k) (Z.to_nat (size / 4096)).
Proof. exact get_exact. Qed.
Print Assumptions C61_counts.

Theorem C61_sum : forall fuel w s s' ptr size, w_map w <> None -> 0 <= ptr -> 0 <= size < W64 -> stat_get fuel w s ptr size = Ok s' ->
  node_sum s' = st_mapped s' /\ st_mapped s' <= st_total s' /\ st_total s' = size / 4096.
Proof. exact get_sum. Qed.
Print Assumptions C61_sum.

(** The statistics of a chain, over the blocs that the scan of the registry finds (C48). *)
Theorem C61_chain : forall fuel w l nodes s', w_map w <> None -> (forall x, In x l -> 0 <= fst x /\ 0 <= snd x < W64) -> pages_sum l < W64 -> cumul_all fuel w l (stat_init nodes) = Ok s' ->
  node_sum s' = st_mapped s' /\ st_mapped s' <= st_total s' /\ st_total s' = pages_sum l.
Proof. exact chain_sum. Qed.
Print Assumptions C61_chain.

(** The check of the ratio reports exactly when some page is present and too few of them are on the node. *)
Theorem C61_check : forall fuel w t s ptr size node ratio, readable w t ptr size -> 0 <= ptr -> 0 <= size < W64 -> ptr + size <= W64 -> size / 4096 <= 524288 -> size / 4096 <= Z.of_nat fuel ->
  0 <= node < MAXNODE ->
  exists s', stat_get fuel w s ptr size = Ok s' /\
    (check_fails s' node ratio = true <->
     0 < count (present t ptr) (Z.to_nat (size / 4096)) /\ 100 * count (present_on w t ptr node) (Z.to_nat (size / 4096)) < ratio * count (present t ptr) (Z.to_nat (size / 4096))).
Proof. exact check_exact. Qed.
Print Assumptions C61_check.

(** Statistics are only given when all the present pages have 4096 bytes. *)
Theorem C61_page_size : forall fuel w t s s' ptr size i, w_map w = Some t -> 0 <= ptr -> 0 <= size < W64 -> ptr + size <= W64 -> stat_get fuel w s ptr size = Ok s' ->
  0 <= i < size / 4096 -> present t ptr i = true -> e_order (t (ptr / 4096 + i)) = 12.
Proof. exact get_order. Qed.
Print Assumptions C61_page_size.

(** Refuted: the number of pages is the number of pages touched for aligned areas only. *)
Theorem C61_unaligned_refuted : forall ptr size, 0 < size -> (size / 4096 = touched ptr size <-> ptr mod 4096 = 0 /\ size mod 4096 = 0).
Proof. exact touched_exact. Qed.
Print Assumptions C61_unaligned_refuted.

(** Refuted: above 2 GB the offset of a page leaves the range of int. *)
Theorem C61_large_refuted : forall fuel w t s ptr size, readable w t ptr size -> 0 <= ptr -> 0 <= size < W64 -> ptr + size <= W64 ->
  524288 < size / 4096 -> 524288 < Z.of_nat fuel -> e_present (t (ptr / 4096 + 524288)) = true -> stat_get fuel w s ptr size = UB.
Proof. exact get_large. Qed.
Print Assumptions C61_large_refuted.

(** Refuted: without access to the page map every page is "mapped", none is counted, and the difference wraps. *)
Theorem C61_no_map_refuted : forall fuel w s ptr size, w_map w = None -> 0 <= size < W64 ->
  exists s', stat_get fuel w s ptr size = Ok s' /\ st_total s' = 0 /\ st_mapped s' = size / 4096 /\ (forall k, st_pages s' k = 0) /\ (4096 <= size -> non_mapped s' = W64 - size / 4096).
Proof. exact no_map. Qed.
Print Assumptions C61_no_map_refuted.

(** Refuted: with the page map and without move_pages the first present page is counted before the array. *)
Theorem C61_no_move_pages_refuted : forall fuel w t s ptr size, w_map w = Some t -> w_calloc w = true -> w_read w = true -> w_move_pages w = false ->
  0 <= ptr < W64 -> 4096 <= size < W64 -> e_present (t (ptr / 4096)) = true -> e_order (t (ptr / 4096)) = 12 -> cumul (S fuel) w s ptr size = UB.
Proof. exact no_move_pages. Qed.
Print Assumptions C61_no_move_pages_refuted.

(** The other build, without page map: right up to 4 GB. *)
Theorem C61_other_build : forall fuel w s ptr size, w_move_pages w = true -> 0 <= ptr -> 0 <= size < W64 -> ptr + size <= W64 -> size / 4096 <= 1048576 -> size / 4096 <= Z.of_nat fuel ->
  exists s', stat_get2 fuel w s ptr size = Ok s' /\ forall k, 0 <= k <= MAXNODE -> st_pages s' k = count (known_on w ptr k) (Z.to_nat (size / 4096)).
Proof. exact cumul2_exact. Qed.
Print Assumptions C61_other_build.

(** Refuted: nodes that own pages only above the first 4 GB are not seen, whatever the size. *)
Theorem C61_above_4gb_refuted : forall fuel w s s' ptr size k, 0 <= ptr -> (forall p, 0 <= p < 1048576 -> node_of_page w (add64 ptr (p * 4096)) <> k) -> stat_get2 fuel w s ptr size = Ok s' -> st_pages s' k = 0.
Proof. exact cumul2_low. Qed.
Print Assumptions C61_above_4gb_refuted.

(** Refuted: from 16 TB on the loop never ends. *)
Theorem C61_endless_refuted : forall fuel w s ptr size, 0 <= ptr -> 0 <= size < W64 -> W32 <= size / 4096 -> cumul2 fuel w s ptr size = OutOfFuel.
Proof. exact cumul2_endless. Qed.
Print Assumptions C61_endless_refuted.

(** Refuted: in that build the check of the ratio never fails, whatever node and ratio are required. *)
Theorem C61_check_refuted : forall fuel w s s' ptr size node ratio, stat_get2 fuel w s ptr size = Ok s' -> st_total s' = 0 /\ st_mapped s' = 0 /\ check_fails s' node ratio = false.
Proof. exact check_useless. Qed.
Print Assumptions C61_check_refuted.

(** Three pages at 65536: on node 0, not present, and (error of move_pages) unknown. *)
Definition map_ex (i : Z) : entry := if i =? 17 then mkEntry false 0 else mkEntry true 12.
Definition world_ex (m : option (Z -> entry)) : world := mkWorld m true true (fun p => if p =? 73728 then -2 else 0) true.
Definition show (r : res nstat) : option (list Z * bool) :=
  match r with Ok s => Some ([st_total s; st_mapped s; st_pages s 0; st_pages s 1; st_pages s 128], check_fails s 1 100) | _ => None end.
Example C61_met : readable (world_ex (Some map_ex)) map_ex 65536 12288 /\
  show (stat_get 3 (world_ex (Some map_ex)) (stat_init (Some 2)) 65536 12288) = Some ([3; 2; 1; 0; 1], true) /\
  show (stat_get2 3 (world_ex None) (stat_init (Some 2)) 65536 12288) = Some ([0; 0; 2; 0; 1], false).
Proof.
  split; [|split; vm_compute; reflexivity].
  split; [reflexivity|]. split; [reflexivity|]. split; [reflexivity|]. split; [reflexivity|]. intros i _ E. unfold map_ex in *.
  destruct (65536 / 4096 + i =? 17); [discriminate|]. split; [reflexivity|]. cbn [world_ex w_status]. destruct (65536 + i * 4096 =? 73728); lia.
Qed.
