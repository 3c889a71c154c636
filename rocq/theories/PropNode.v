(** C59 and C60: the preferred node of a thread, the binding of memory to nodes. *)
From Verif Require Import Res NodeModel NodeSpec NodeProofs.
From Coq Require Import ZArith List Bool Lia.
Import ListNotations.
Open Scope Z_scope.

(** ** C59 *)
Theorem C59_first_bit : forall b, (exists k, bit b k) -> exists m, get_first_bit b = Ok (Z.of_nat m) /\ least_bit b m.
Proof. exact first_bit. Qed.
Print Assumptions C59_first_bit.

(** Refuted: a thread whose cores all belong to node [k], and hwloc says so: no node is preferred. *)
Theorem C59_bound_thread_refuted : forall h k, thread_on h k -> exists l, preferred h = Ok (-1, l) /\ (2 <= l)%nat.
Proof. intros h k (_ & E & _). exact (preferred_none h E). Qed.
Print Assumptions C59_bound_thread_refuted.

(** The node is found only when hwloc fails and fills the set all the same. *)
Theorem C59_failed_call : forall h k, cpub_status h <> 0 -> only_bit (to_nodes h (cpub h)) k -> exists l, preferred h = Ok (Z.of_nat k, l).
Proof. exact preferred_failed. Qed.
Print Assumptions C59_failed_call.

(** Refuted: the memory binding of the thread, which is asked first, has no influence on the node. *)
Theorem C59_membind_refuted : forall h h', cpub_status h' = cpub_status h -> cpub h' = cpub h -> to_nodes h' = to_nodes h ->
  exists x l l', preferred h = Ok (x, l) /\ preferred h' = Ok (x, l').
Proof. exact membind_ignored. Qed.
Print Assumptions C59_membind_refuted.

(** Refuted: every thread gets the default source, in the build without getcpu. *)
Theorem C59_source_refuted : forall nodes h k, thread_on h k -> getcpu h = None -> local_source nodes h = Ok DEFAULT_ID.
Proof. intros nodes h k (_ & E & _). exact (default_source nodes h E). Qed.
Print Assumptions C59_source_refuted.

Theorem C59_source_exists : forall nodes h, getcpu h = None -> nodes <= 128 -> (forall b k, bit (to_nodes h b) k -> Z.of_nat k < nodes) ->
  exists r, local_source nodes h = Ok r /\ (r = DEFAULT_ID \/ 0 <= r < nodes /\ only_bit (to_nodes h (cpub h)) (Z.to_nat r)).
Proof. exact source_safe. Qed.
Print Assumptions C59_source_exists.

(** Refuted: with getcpu the number of the processing unit is taken for the number of a node: another node, no source, or the end. *)
Theorem C59_getcpu_refuted : forall nodes h k p, cpub_status h = 0 -> getcpu h = Some (k, p) -> 0 <= p -> nodes <= 128 ->
  (p < nodes -> local_source nodes h = Ok p) /\ (nodes <= p < 128 -> local_source nodes h = UB) /\ (128 < p -> local_source nodes h = Abort).
Proof. exact getcpu_source. Qed.
Print Assumptions C59_getcpu_refuted.

(** A machine of two nodes with two cores each; the thread is bound to core 2, on node 1. *)
Definition hw_ex (status : Z) (g : option (Z * Z)) : hw :=
  mkHw true 0 0 [] status [false; false; true; false] (fun b => [nth 0 b false || nth 1 b false; nth 2 b false || nth 3 b false]) g.
Example C59_met : thread_on (hw_ex 0 None) 1 /\ preferred (hw_ex 0 None) = Ok (-1, 4%nat) /\ local_source 2 (hw_ex 0 None) = Ok 128 /\
  local_source 2 (hw_ex (-1) None) = Ok 1 /\ local_source 2 (hw_ex 0 (Some (1, 2))) = UB /\ get_first_bit [false; true; true] = Ok 1 /\
  (forall b k, bit (to_nodes (hw_ex 0 None) b) k -> Z.of_nat k < 2).
Proof.
  split; [split; [reflexivity|split; [reflexivity|]]; intros [|[|[|k]]]; cbn; split; try reflexivity; discriminate|].
  do 5 (split; [vm_compute; reflexivity|]). intros b [|[|[|k]]]; cbn; try lia; discriminate.
Qed.

(** ** C60 *)
Theorem C60_on_node : forall h nodes node, has_nodes h = true -> 0 <= nodes <= 128 ->
  (0 <= node < nodes -> on_node_chain h nodes node = Ok (Some node) /\ on_node_init h nodes node = Some (ns_init node true)) /\
  (~ 0 <= node < nodes -> on_node_chain h nodes node = Abort).
Proof. exact on_node_good. Qed.
Print Assumptions C60_on_node.

Theorem C60_bound : forall nodes on s, nreach nodes on s -> all_bound s.
Proof. exact bound_all. Qed.
Print Assumptions C60_bound.

Theorem C60_no_fault : forall nodes on s a, nreach nodes on s -> nvalid nodes on s a -> exists s', nstep nodes on a s = Ok s'.
Proof. exact node_no_fault. Qed.
Print Assumptions C60_no_fault.

(** Refuted: a source moved to node [t]: the segments it keeps go to [t], the new ones still to the old node. *)
Theorem C60_moved_source_refuted : forall nodes on s j t n, nreach nodes on s -> 0 <= t < nodes -> t <> Z.of_nat j -> 0 < n ->
  exists s', nstep nodes true (NMigSrc j t) s = Ok s' /\ nsrcs s' j = mkNs (Z.of_nat j) (Some (Z.of_nat j)) true (map (fun x => (fst x, Some t)) (ncache (nsrcs s j))) /\
    snd (ns_request (nsrcs s' j) n false) = (n, Some (Z.of_nat j)).
Proof. intros nodes on s j t n R. exact (moved_source nodes s j t n (nreach_NI _ _ _ R)). Qed.
Print Assumptions C60_moved_source_refuted.

(** Refuted: moving it back to its node does nothing. *)
Theorem C60_moved_back_refuted : forall nodes on s j t, nreach nodes on s -> 0 <= t < nodes -> t <> Z.of_nat j ->
  exists s' s2, nstep nodes true (NMigSrc j t) s = Ok s' /\ nstep nodes true (NMigSrc j (Z.of_nat j)) s' = Ok s2 /\ nsrcs s2 j = nsrcs s' j /\
    forall x, In x (ncache (nsrcs s2 j)) -> snd x = Some t.
Proof. intros nodes on s j t R. exact (moved_back nodes s j t (nreach_NI _ _ _ R)). Qed.
Print Assumptions C60_moved_back_refuted.

(** Refuted: with numa_migration off a chain can be given another source; memory of the old node then ends in the cache of the new one. *)
Theorem C60_moved_chain_refuted : forall nodes on s c j n, nreach nodes on s -> nlink s c <> j -> 0 < n ->
  exists s', nruns nodes false s [NReq c n false; NMigChain c (Z.of_nat j) (Some j); NFree c 0 true] s' /\
    exists x, In x (ncache (nsrcs s' j)) /\ snd x = Some (Z.of_nat (nlink s c)).
Proof. intros nodes on s c j n R. exact (moved_chain nodes s c j n (nreach_NI _ _ _ R)). Qed.
Print Assumptions C60_moved_chain_refuted.

(** Refuted: target -1, documented as "no binding", reads through NULL. *)
Theorem C60_reset_refuted : forall nodes s c x l j, nsegs s c = x :: l -> fst x <> 0 -> nstep nodes true (NMigChain c (-1) j) s = UB.
Proof. exact reset_ub. Qed.
Print Assumptions C60_reset_refuted.

(** A chain of node 0 with two segments and one cached, moved to node 1. *)
Definition node_ex : list nact := [NReq 0 4096 false; NReq 0 8192 false; NFree 0 1 true; NIns 1 (4096, Some 0); NMigChain 0 1 (Some 1%nat); NReq 0 4096 true].
Fixpoint node_run (l : list nact) (s : nst) : res nst := match l with [] => Ok s | a :: l => rbind (nstep 2 true a s) (node_run l) end.
Example C60_met : exists s, nreach 2 true s /\ node_run node_ex nst0 = Ok s /\ nlink s 0%nat = 1%nat /\ nsegs s 0%nat = [(4096, Some 1); (8192, Some 1)] /\
  ncache (nsrcs s 0%nat) = [(4096, Some 0)].
Proof.
  pose proof (nreach_0 2 true) as R0.
  pose proof (nreach_s 2 true nst0 (NReq 0 4096 false) _ R0 eq_refl eq_refl) as R1.
  pose proof (nreach_s 2 true _ (NReq 0 8192 false) _ R1 eq_refl eq_refl) as R2.
  pose proof (nreach_s 2 true _ (NFree 0 1 true) _ R2 Logic.I eq_refl) as R3.
  pose proof (nreach_s 2 true _ (NIns 1 (4096, Some 0)) _ R3 eq_refl eq_refl) as R4.
  pose proof (nreach_s 2 true _ (NMigChain 0 1 (Some 1%nat)) _ R4 (conj eq_refl (conj eq_refl eq_refl)) eq_refl) as R5.
  pose proof (nreach_s 2 true _ (NReq 0 4096 true) _ R5 eq_refl eq_refl) as R6.
  eexists. split; [exact R6|]. split; [reflexivity|]. split; [reflexivity|]. split; reflexivity.
Qed.
