(** Property C88, queues of remote frees: the owner of a queue, anywhere in its purge, is interrupted by a handler that purges the same queue
    ([handler_purge]; malloc and free do).  [may_enter c]: the owner has not yet read the head, or has cleared it and not yet swapped the
    tail; [hreach]: the executions with such handlers there.  The frees of the entries themselves are not looked at here. *)
From Verif Require Import MpscfModel MpscfSpec SignalSpec SignalQueue.
From Coq Require Import ZArith List Bool Lia.
Import ListNotations.
Open Scope Z_scope.

(** At those places the handler does no harm: no entry is touched after its delivery, and the entries are delivered in their order, once. *)
Theorem C88_queue : forall s, hreach s -> cns s <> CBad /\ (forall t, prd s t <> PBad) /\ prefix (dels (tr s)) (pubs (tr s)).
Proof. exact hreach_safe. Qed.
Print Assumptions C88_queue.

(** Between the read of the head and the store that clears it (queue.h 212, 222) it does, always: the handler delivers and frees the entry whose address
    the owner holds ([busy] is false: it may be given again), and the owner goes on with the empty queue (the assertion of queue.h 229 fails). *)
Theorem C88_queue_refuted : forall s h, hreach s -> cns s = CClear h -> (forall t, ~ in_flight s t) ->
  exists s1 s2, handler_purge s s1 /\ In h (map fst (dels (tr s1))) /\ busy s1 h = false /\ exec s1 [Cons; Cons] s2 /\ cns s2 = CBad.
Proof. exact clear_bad. Qed.
Print Assumptions C88_queue_refuted.

(** Thread 7 gives block 64; the owner sees the queue not empty; a handler purges it and the owner goes on (nothing is left).  Another execution: the
    owner has read the head. *)
Example C88_queue_nontrivial :
  (exists s, hreach s /\ cns s = CLoad /\ qhd s = 0 /\ dels (tr s) = [(64, 5)] /\ pubs (tr s) = [(64, 5)]) /\
  (exists s, hreach s /\ cns s = CClear 64 /\ (forall t, ~ in_flight s t)).
Proof.
  set (l := Start 7 64 5 :: repeat (Go 7) 5 ++ [Cons]). set (i0 := q0 (fun _ => 0) (fun _ => 0)).
  destruct (go_on i0 l) as [s|] eqn:E; [|vm_compute in E; discriminate E].
  pose proof (exec_hreach i0 l s (go_exec l i0 s E) (hr_0 _ _)) as R.
  assert (C : cns s = CLoad) by (vm_compute in E; injection E as <-; reflexivity).
  assert (P : forall t, ~ in_flight s t).
  { intros t (e & p & H). vm_compute in E. injection E as <-. cbn in H. unfold updp in H.
    repeat match type of H with context [if ?b then _ else _] => destruct b; try discriminate H end;
    repeat match type of H with context [match ?b with _ => _ end] => destruct b; try discriminate H end. }
  split.
  - destruct (go_on (set_cons s CIdle) (repeat Cons 8)) as [s1|] eqn:E1; [|vm_compute in E; injection E as <-; vm_compute in E1; discriminate E1].
    pose proof (go_exec _ _ _ E1) as X. vm_compute in E. injection E as E.
    assert (F : cns s1 = CIdle /\ qhd s1 = 0 /\ dels (tr s1) = [(64, 5)] /\ pubs (tr s1) = [(64, 5)]).
    { rewrite <- E in E1. vm_compute in E1. injection E1 as <-. vm_compute. auto. }
    destruct F as (F1 & F2 & F3 & F4). exists (set_cons s1 CLoad). split; [|split; [reflexivity|split; [exact F2|split; [exact F3|exact F4]]]].
    rewrite <- C. apply (hr_purge s); [exact R|right; left; exact C|]. exists (repeat Cons 8), s1. split; [exact X|]. split; [exact F1|reflexivity].
  - exists (set_cons s (CClear 64)). split; [|split; [reflexivity|exact P]].
    apply (hr_step s Cons); [exact R|]. cbn [step]. unfold consume. rewrite C.
    assert (H : qhd s = 64) by (vm_compute in E; injection E as <-; reflexivity). rewrite H. reflexivity.
Qed.
