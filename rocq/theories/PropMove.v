(** C81: a chain follows its thread to another NUMA node. *)
From Verif Require Import Res NodeModel NodeSpec MoveModel MoveSpec MoveProofs.
From Coq Require Import ZArith List Bool Lia.
Import ListNotations.
Open Scope Z_scope.

(** Memory is never bound to a node other than that of the source it belongs to, in any history, with any setting. *)
Theorem C81_right_node : forall g s, vgood g -> vreach g s -> right_node s.
Proof. exact never_elsewhere. Qed.
Print Assumptions C81_right_node.

(** If the node of the thread is found, its chain gets the source of that node, and with migration on all its memory and its structure are there;
    with migration off nothing moves; the sizes are kept and the other chains not touched. *)
Theorem C81_follows_partial : forall g s c h k, vgood g -> vreach g s -> v_rr g = false -> v_numa g = true -> 0 <= k < v_nodes g -> local_source (v_nodes g) h = Ok k ->
  exists s', vstep g (VMove c h) s = Ok s' /\ nlink (v_n s') c = Z.to_nat k /\ nnode (nsrcs (v_n s') (nlink (v_n s') c)) = k /\
    (forall d, d <> c -> nsegs (v_n s') d = nsegs (v_n s) d /\ nlink (v_n s') d = nlink (v_n s) d /\ v_str s' d = v_str s d) /\
    map fst (nsegs (v_n s') c) = map fst (nsegs (v_n s) c) /\
    (v_mig g = true -> nlink (v_n s) c <> Z.to_nat k -> v_str s' c = Some k /\ forall x, In x (nsegs (v_n s') c) -> snd x = Some k) /\
    (v_mig g = false -> nsegs (v_n s') c = nsegs (v_n s) c /\ v_str s' c = v_str s c).
Proof. exact follows. Qed.
Print Assumptions C81_follows_partial.

(** Refuted: the threads are bound to a node at each move, and hwloc says so: every chain stays with the default source and no memory is bound (see C59). *)
Theorem C81_bound_thread_refuted : forall g s, vgood g -> v_rr g = false -> vbound g s ->
  forall c, nlink (v_n s) c = DEF /\ v_str s c = None /\ forall x, In x (nsegs (v_n s) c) -> snd x = None.
Proof. intros g s G RR B. exact (stays_default g s G RR B (bound_reach g s B)). Qed.
Print Assumptions C81_bound_thread_refuted.

(** Refuted: "it will be create at first use on the current numa node" (911-912): it is made on the default source. *)
Theorem C81_first_use_refuted : forall g s c h, v_rr g = false -> exists s', vstep g (VStart c h) s = Ok s' /\ nlink (v_n s') c = DEF.
Proof. exact start_default. Qed.
Print Assumptions C81_first_use_refuted.

(** Refuted: a thread whose chain is on a node and whose node is no longer known: the source without node has node -1, which is not the 128 of the test
    at 963, and the object of node -1 is used. *)
Theorem C81_unknown_refuted : forall g s c h, vgood g -> vreach g s -> v_rr g = false -> v_numa g = true -> v_mig g = true -> nlink (v_n s) c <> DEF ->
  local_source (v_nodes g) h = Ok DEFAULT_ID -> vstep g (VMove c h) s = UB.
Proof. exact to_unknown. Qed.
Print Assumptions C81_unknown_refuted.

(** Refuted: with the round robin, of two moves one leaves the chain of any node, whatever the thread does. *)
Theorem C81_round_robin_refuted : forall g s c h1 h2 s1 s2 k, vgood g -> vreach g s -> v_rr g = true -> vstep g (VMove c h1) s = Ok s1 -> vstep g (VMove c h2) s1 = Ok s2 ->
  nlink (v_n s1) c = Z.to_nat (v_cnt s) /\ nlink (v_n s2) c = Z.to_nat ((v_cnt s + 1) mod v_nodes g) /\ (nlink (v_n s1) c <> k \/ nlink (v_n s2) c <> k).
Proof. exact robin_away. Qed.
Print Assumptions C81_round_robin_refuted.

(** ** The hypotheses are met *)
(** Two nodes of two cores each; the thread is on core 2, on node 1; the answer of hwloc_get_cpubind is [status]. *)
Definition h_ex (status : Z) : hw :=
  mkHw true 0 0 [] status [false; false; true; false] (fun b => [nth 0 b false || nth 1 b false; nth 2 b false || nth 3 b false]) None.
Definition g_ex (mig rr : bool) : vcfg := mkVc 2 mig rr true.
Fixpoint vrun (g : vcfg) (l : list vact) (s : vst) : res vst := match l with [] => Ok s | a :: l => match vstep g a s with Ok s' => vrun g l s' | r => r end end.
(** Chain 0 starts, gets two segments and moves to node 1; asks for another; gives one back that chain 1 takes over. *)
Definition l_ex : list vact := [VStart 0 (h_ex 0); VReq 0 2097152 false; VReq 0 4194304 false; VMove 0 (h_ex (-1)); VReq 0 8192 false; VFree 0 1 true; VMove 1 (h_ex (-1)); VReq 1 4194304 true].
Definition view (r : res vst) : option (list (nat * option Z * list (Z * option Z)) * list (Z * option Z)) :=
  match r with Ok s => Some (map (fun c => (nlink (v_n s) c, v_str s c, nsegs (v_n s) c)) [0; 1]%nat, ncache (nsrcs (v_n s) 1)) | _ => None end.
Lemma run_reach g l s : vreach g s -> forall s', vrun g l s = Ok s' -> (fix ok l s := match l with [] => True | a :: l => vvalid s a /\ match vstep g a s with Ok s' => ok l s' | _ => True end end) l s -> vreach g s'.
Proof.
  revert s. induction l as [|a l IH]; intros s R s' H V; cbn [vrun] in H; [injection H as <-; exact R|]. destruct V as (V & V'). destruct (vstep g a s) as [s1| | |] eqn:E; try discriminate.
  exact (IH s1 (vreach_s g s a s1 R V E) s' H V').
Qed.
Example C81_met : view (vrun (g_ex true false) l_ex v0) =
  Some ([(1%nat, Some 1, [(8192, None); (2097152, Some 1)]); (1%nat, Some 1, [(4194304, Some 1)])], []).
Proof. vm_compute. reflexivity. Qed.
Example C81_met_reach : exists s, vrun (g_ex true false) l_ex v0 = Ok s /\ vreach (g_ex true false) s /\ vgood (g_ex true false) /\ local_source 2 (h_ex (-1)) = Ok 1 /\ nlink (v_n s) 0%nat <> DEF /\
  local_source 2 (h_ex 0) = Ok DEFAULT_ID.
Proof.
  destruct (vrun (g_ex true false) l_ex v0) as [s| | |] eqn:E; [|exfalso; revert E; vm_compute; discriminate ..]. exists s. split; [reflexivity|].
  split; [apply (run_reach _ l_ex v0); [constructor|exact E|cbn; repeat split; lia]|]. split; [unfold vgood; cbn; lia|]. split; [vm_compute; reflexivity|]. split; [|vm_compute; reflexivity].
  assert (X : match vrun (g_ex true false) l_ex v0 with Ok s => nlink (v_n s) 0%nat | _ => DEF end = 1%nat) by (vm_compute; reflexivity). rewrite E in X. rewrite X. discriminate.
Qed.
(** The same thread, hwloc succeeding: nothing moves; then lost; then with the round robin. *)
Example C81_met_bound : thread_on (h_ex 0) 1 /\ getcpu (h_ex 0) = None /\
  view (vrun (g_ex true false) [VStart 0 (h_ex 0); VReq 0 2097152 false; VMove 0 (h_ex 0)] v0) = Some ([(128%nat, None, [(2097152, None)]); (128%nat, None, [])], []) /\
  vrun (g_ex true false) [VMove 0 (h_ex (-1)); VMove 0 (h_ex 0)] v0 = UB /\
  view (vrun (g_ex true true) [VMove 0 (h_ex (-1))] v0) = Some ([(0%nat, Some 0, []); (128%nat, None, [])], []) /\
  view (vrun (g_ex true true) [VMove 0 (h_ex (-1)); VMove 0 (h_ex (-1))] v0) = Some ([(1%nat, Some 1, []); (128%nat, None, [])], []).
Proof.
  split; [split; [reflexivity|split; [reflexivity|]]; intros [|[|[|k]]]; cbn; split; try reflexivity; discriminate|]. split; [reflexivity|].
  split; [vm_compute; reflexivity|]. split; [vm_compute; reflexivity|]. split; vm_compute; reflexivity.
Qed.
