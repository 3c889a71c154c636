(** C55: start-up and memory source of a new thread.  C56: round robin over the memory sources. *)
From Verif Require Import Res InitModel InitSpec InitProofs InitMore RobinModel RobinSpec RobinProofs.
From Coq Require Import List Bool Arith Lia.
Import ListNotations.

(** ** C55 *)
(** In every execution with any number of threads, what is initialised is initialised once, in a fixed order. *)
Theorem C55_once_in_order : forall m s, mach_ok m -> ireach m s -> NoDup (all_done m) /\ exists e, all_done m = glog s ++ e.
Proof. exact done_prefix. Qed.
Print Assumptions C55_once_in_order.
(** Nothing is undone. *)
Theorem C55_stays : forall m s l s', iruns m s l s' -> exists e, glog s' = glog s ++ e.
Proof. exact done_stays. Qed.
Print Assumptions C55_stays.
(** A thread that has left base_init finds the configuration, the egg allocator and its source, and the default source ready. *)
Theorem C55_started_ready : forall m s t, mach_ok m -> ireach m s -> started (at_ s t) ->
  2 <= gstate s /\ (forall d, In d (basics m) -> In d (glog s)).
Proof. exact started_ready. Qed.
Print Assumptions C55_started_ready.
(** At most one thread is between the lock and the unlock of base_init. *)
Theorem C55_one_inside : forall m s t u, mach_ok m -> ireach m s -> inside_init (at_ s t) -> inside_init (at_ s u) -> t = u.
Proof. exact one_inside. Qed.
Print Assumptions C55_one_inside.
(** The final state means that everything was done. *)
Theorem C55_all_done : forall m s, mach_ok m -> ireach m s -> gstate s = 3 -> glog s = all_done m.
Proof. exact done_3. Qed.
Print Assumptions C55_all_done.
(** The source that a thread gets is initialised. *)
Theorem C55_source_ready : forall m s t id, mach_ok m -> ireach m s -> at_ s t = Got id -> In (Source id) (glog s).
Proof. exact got_source. Qed.
Print Assumptions C55_source_ready.
(** No check of the start-up fails, whatever the options. *)
Theorem C55_no_abort : forall m s a, mach_ok m -> ireach m s -> iact_ok m a -> istep m a s <> Abort /\ istep m a s <> OutOfFuel.
Proof. exact only_robin. Qed.
Print Assumptions C55_no_abort.
(** Without the round robin, or once the start-up is over on a machine with nodes, no step is undefined. *)
Theorem C55_no_fault : forall m s a, mach_ok m -> ireach m s -> iact_ok m a ->
  hw m = false \/ robin m = false \/ (gstate s = 3 /\ nodes m <> 0) -> exists s', istep m a s = Ok s'.
Proof. exact no_fault. Qed.
Print Assumptions C55_no_fault.
(** Without the NUMA options the source is the default one. *)
Theorem C55_default_source : forall m s, mach_ok m -> numa m = false -> robin m = false -> ireach m s ->
  forall t, (forall p, at_ s t = Pick p -> p = Some (if hw m then 128 else 0)) /\ (forall id, at_ s t = Got id -> id = if hw m then 128 else 0).
Proof. exact default_source. Qed.
Print Assumptions C55_default_source.
(** From any state, a thread that has made its first call can be brought to its source: no dead end, no deadlock. *)
Theorem C55_progress : forall m s t, mach_ok m -> (hw m = false \/ robin m = false) -> ireach m s -> at_ s t <> Out ->
  exists l s' id, iruns m s l s' /\ at_ s' t = Got id.
Proof. exact progress. Qed.
Print Assumptions C55_progress.
(** With the round robin, a thread arriving between the two last states is given a source that does not exist yet: on every machine with
    nodes and for every node the round robin may answer. *)
Theorem C55_robin_early_refuted : forall n b r, 0 < n <= 128 -> r < n ->
  exists s, ireach (mkMach true n b true) s /\ iact_ok (mkMach true n b true) (Go 1 None r) /\ istep (mkMach true n b true) (Go 1 None r) s = UB.
Proof. exact robin_early. Qed.
Print Assumptions C55_robin_early_refuted.
(** With the round robin on a machine where hwloc shows no node, no thread ever gets a source. *)
Theorem C55_robin_no_node_refuted : forall m s t id, hw m = true -> robin m = true -> nodes m = 0 -> ireach m s -> at_ s t <> Got id.
Proof. exact robin_0. Qed.
Print Assumptions C55_robin_no_node_refuted.

(** Four nodes, NUMA enabled: thread 0 does the start-up while thread 1 waits; thread 1 then asks for its node and gets source 3. *)
Definition mach4 : machine := mkMach true 4 true false.
Definition demo : list iact :=
  [Begin 0; Begin 1; go 0; go 1; go 0; go 1; go 0] ++ repeat (go 0) 19 ++ [go 1; go 1; go 1; go 1; go 1; go 1; go 1; Ask 1; go 1; Go 1 (Some 3) 0; Go 1 (Some 3) 0].
Example C55_met : mach_ok mach4 /\ exists s, ireach mach4 s /\ at_ s 1 = Got 3 /\ gstate s = 3 /\ at_ s 0 = Chain /\ started (at_ s 0).
Proof.
  split; [cbv; lia|]. assert (E : exists s, fold_left (fun x a => rbind x (istep mach4 a)) demo (Ok ist0) = Ok s /\ at_ s 1 = Got 3 /\ gstate s = 3 /\ at_ s 0 = Chain) by (eexists; split; [vm_compute; reflexivity|split; [reflexivity|split; reflexivity]]).
  destruct E as (s & E & A & B & C). exists s. split; [|rewrite C; cbn; auto]. apply (iruns_ireach mach4 ist0 demo); [apply ireach_0|]. apply run_lst; [|exact E].
  intros a H. unfold demo in H. rewrite !in_app_iff in H. cbn [In repeat] in H. destruct H as [H|[H|H]]; repeat (destruct H as [<-|H]; [first [exact Logic.I|apply go_ok|split; [intros i Z; injection Z as <-; cbn; lia|right; cbn; lia]]|]); contradiction.
Qed.
(** A thread in the middle of the start-up, a second one waiting for the lock. *)
Example C55_waiting_met : exists s, ireach mach4 s /\ inside_init (at_ s 0) /\ at_ s 1 = Lock /\ gstate s = 1.
Proof.
  set (l := [Begin 0; Begin 1; go 0; go 1; go 0; go 1; go 0; go 0; go 0; go 0; go 1]).
  assert (E : exists s, fold_left (fun x a => rbind x (istep mach4 a)) l (Ok ist0) = Ok s /\ at_ s 0 = In_ 3 /\ at_ s 1 = Lock /\ gstate s = 1) by (eexists; split; [vm_compute; reflexivity|split; [reflexivity|split; reflexivity]]).
  destruct E as (s & E & A & B & C). exists s. split; [|rewrite A; cbn; auto]. apply (iruns_ireach mach4 ist0 l); [apply ireach_0|]. apply run_lst; [|exact E].
  intros a H. unfold l in H. cbn [In] in H. repeat (destruct H as [<-|H]; [first [exact Logic.I|apply go_ok]|]). contradiction.
Qed.

(** ** C56 *)
(** No step of the round robin is undefined and every answer is a node, whatever the interleaving. *)
Theorem C56_no_fault : forall n s t, 0 < n -> rreach n s -> exists s', rstep n t s = Ok s'.
Proof. exact rno_fault. Qed.
Print Assumptions C56_no_fault.
Theorem C56_in_range : forall n s t c, 0 < n -> rreach n s -> rat s t = RDone c -> c < n.
Proof. exact rin_range. Qed.
Print Assumptions C56_in_range.
(** A call that has begun can return, in every reachable state. *)
Theorem C56_progress : forall n s t, 0 < n -> rreach n s -> rat s t <> RIdle -> exists l s' c, rruns n l s = Ok s' /\ rat s' t = RDone c.
Proof. exact rprogress. Qed.
Print Assumptions C56_progress.
(** From any state where the first calls are over and no call is inside, calls exclude each other and the answers follow the order of the
    nodes, one after the other. *)
Theorem C56_turns : forall n s l s', 0 < n -> rreach n s -> rquiet s -> rruns n l s = Ok s' ->
  (forall t u, rinside (rat s' t) -> rinside (rat s' u) -> t = u) /\ exists c k, rcnt s = Some c /\ rlog s' = rlog s ++ turns n c k.
Proof. exact quiet_turns. Qed.
Print Assumptions C56_turns.
(** In particular when the first call is made alone. *)
Theorem C56_first_alone : forall n t l s s', 0 < n -> rruns n (repeat t 8) rst0 = Ok s -> rruns n l s = Ok s' ->
  (forall u v, rinside (rat s' u) -> rinside (rat s' v) -> u = v) /\ rlog s' = turns n 0 (length (rlog s')).
Proof. exact first_alone. Qed.
Print Assumptions C56_first_alone.
(** Such answers are fair: two nodes are given the same number of times, up to one. *)
Theorem C56_fair : forall n k i j, i < n -> j < n -> given i (turns n 0 k) <= given j (turns n 0 k) + 1.
Proof. exact turns_fair. Qed.
Print Assumptions C56_fair.
(** The first calls race on the initialisation: any number of threads may all be given node 0. *)
Theorem C56_same_node_refuted : forall n k, 0 < n -> exists s, rreach n s /\ rlog s = repeat 0 k /\ forall t, t < k -> rat s t = RDone 0.
Proof. exact all_zero. Qed.
Print Assumptions C56_same_node_refuted.
(** And the lock, initialised again while it is taken, lets two threads in. *)
Theorem C56_two_inside_refuted : forall n, 0 < n -> exists s, rreach n s /\ rinside (rat s 0) /\ rinside (rat s 1).
Proof. exact both_inside. Qed.
Print Assumptions C56_two_inside_refuted.
(** Without a node (as hwloc 1 says of a machine that is not NUMA) no call returns. *)
Theorem C56_no_node_refuted : forall s t c, rreach 0 s -> rat s t <> RDone c.
Proof. exact no_node. Qed.
Print Assumptions C56_no_node_refuted.
Example C56_met : exists s s', rruns 3 (repeat 5 8) rst0 = Ok s /\ rquiet s /\
  rruns 3 [1; 2; 1; 2; 2; 1; 2; 2; 2; 1; 1; 1; 1] s = Ok s' /\ rlog s' = [0; 1; 2] /\ rat s' 2 = RDone 1 /\ rat s' 1 = RDone 2.
Proof.
  destruct (first_run 3 5) as (s & E & Q & L & C & D); [lia|]. exists s. vm_compute in E. injection E as E. rewrite <- E in *. eexists. split; [vm_compute; reflexivity|]. split; [exact Q|].
  split; [vm_compute; reflexivity|]. split; [reflexivity|split; reflexivity].
Qed.
