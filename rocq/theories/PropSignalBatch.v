(** Property C88, queues of remote frees again: handlers in handlers, and handlers that purge the queue while their thread has a batch in hand.
    [hexec]: the executions where handlers of the owner purge its queue (sctk_allocator.c 1787-1825) at any place except between the load and
    the clear of the head (there, see C88_queue_refuted); a handler may be interrupted in its turn, at the same places. *)
From Verif Require Import MpscfModel MpscfSpec SignalSpec SignalBatch.
From Coq Require Import ZArith List Bool Lia Permutation.
Import ListNotations.
Open Scope Z_scope.

(** No entry is touched outside its time in the queue, and nothing is lost or delivered twice: the publications are, up to order, the deliveries
    and entries that are still with the queue, each once. *)
Theorem C88_batch : forall n p s, hexec (q0 n p) s ->
  cns s <> CBad /\ (forall t, prd s t <> PBad) /\ exists rest, Permutation (pubs (tr s)) (dels (tr s) ++ rest) /\ NoDup (map fst rest) /\
  forall x, In x (map fst rest) -> busy s x = true.
Proof. exact batch_safe. Qed.
Print Assumptions C88_batch.

(** When no producer is between swap and link and the queue looks empty to the idle owner, all was delivered. *)
Theorem C88_batch_all : forall n p s, hexec (q0 n p) s -> (forall t, ~ in_flight s t) -> cns s = CIdle -> qhd s = 0 ->
  Permutation (pubs (tr s)) (dels (tr s)).
Proof. exact batch_all. Qed.
Print Assumptions C88_batch_all.

(** The order of C24 is lost: the handler delivers younger entries before those in hand. *)
Theorem C88_batch_order_refuted : ~ forall n p s, hexec (q0 n p) s -> prefix (dels (tr s)) (pubs (tr s)).
Proof. exact order_lost. Qed.
Print Assumptions C88_batch_order_refuted.

(** The execution behind it: thread 7 gives blocks 64 and 128, the handler runs when the batch [64] is in hand. *)
Example C88_batch_nontrivial : hexec i0 e3 /\ cns e1 = CWalk 64 /\ cns e3 = CIdle /\ qhd e3 = 0 /\
  (forall t, ~ in_flight e3 t) /\ pubs (tr e3) = [(64, 5); (128, 6)] /\ dels (tr e3) = [(128, 6); (64, 5)].
Proof.
  destruct e_run as (X & C1 & C3 & H & P & D). split; [exact X|]. split; [exact C1|]. split; [exact C3|]. split; [exact H|]. split; [|split; [exact P|exact D]].
  intros t (e & p & K). vm_compute in K.
  repeat match type of K with context [match ?b with _ => _ end] => destruct b; try discriminate K end.
Qed.

(** The owner may also wait for a link of its batch: thread 8 has not linked block 128 to block 64 when the handler delivers block 192. *)
Example C88_batch_wait_nontrivial : hexec i0 d3 /\ cns d1 = CWait 64 128 64 /\ prd d1 8%nat = PLink 128 64 /\ dels (tr d2) = [(192, 7)] /\
  cns d3 = CIdle /\ pubs (tr d3) = [(64, 5); (128, 6); (192, 7)] /\ dels (tr d3) = [(192, 7); (64, 5); (128, 6)].
Proof. exact d_run. Qed.
