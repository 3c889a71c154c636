(** The remote free queue on a machine with store buffers: C62. *)
From Verif Require Import MpscfModel MpscfSpec TsoModel TsoSpec TsoProofs TsoProps.
From Coq Require Import ZArith List Bool Lia.
Import ListNotations.
Open Scope Z_scope.

(** C62. With store buffers too, the blocks handed to the owner are at any moment the first ones of the published ones. *)
Theorem C62_delivered_once : forall s, treach true s -> prefix (dels (ttr s)) (pubs (ttr s)).
Proof. exact tso_prefix. Qed.
Print Assumptions C62_delivered_once.

(** C62. No assertion of the queue fails, and a store of the queue never reaches memory after its block has left the queue (a
    store that waits in a buffer could corrupt a block already used for something else). *)
Theorem C62_no_late_store : forall s, treach true s -> tcs s <> CBad /\ tbad s = false.
Proof. exact tso_never_bad. Qed.
Print Assumptions C62_no_late_store.

(** C62. When all stores have reached memory and no call is between its swap and its link, an empty queue means that everything
    published was delivered. *)
Theorem C62_empty_means_all_delivered : forall s, treach true s -> settled s -> tcs s = CIdle -> thd s = 0 ->
  dels (ttr s) = pubs (ttr s).
Proof. exact tso_quiescent. Qed.
Print Assumptions C62_empty_means_all_delivered.

(** C62. From any state where no call is between its swap and its link, the memory system and the owner alone bring everything
    published to the owner, whatever is in the buffers. *)
Theorem C62_owner_collects_all : forall s, treach true s -> (forall t e p, tpc s t <> PLink e p) ->
  exists l s', texec true s l s' /\ (forall a, In a l -> quiet_act a) /\ tcs s' = CIdle /\
    dels (ttr s') = pubs (ttr s') /\ pubs (ttr s') = pubs (ttr s).
Proof. exact tso_drain. Qed.
Print Assumptions C62_owner_collects_all.

(** C62. Per thread, blocks are published in the order of the calls, each before its call returns. *)
Theorem C62_program_order : forall s t, treach true s -> prefix (pubs_of t (ttr s)) (starts_of t (ttr s)) /\
  (length (starts_of t (ttr s)) <= S (rets_of t (ttr s)))%nat /\ (rets_of t (ttr s) <= length (pubs_of t (ttr s)))%nat.
Proof. exact tso_order. Qed.
Print Assumptions C62_program_order.

Theorem C62_returned_is_published : forall s t, treach true s -> tpc s t = PIdle ->
  pubs_of t (ttr s) = starts_of t (ttr s) /\ rets_of t (ttr s) = length (starts_of t (ttr s)).
Proof. exact tso_idle. Qed.
Print Assumptions C62_returned_is_published.

(** C62. The owner finishes a batch after a bounded number of its own steps, not counting those where it waits for a link. *)
Theorem C62_batch_finishes : forall s n s', treach true s -> trun ttaken s n s' -> (n <= 4 * toutstanding s + 1)%nat.
Proof. exact tso_bounded. Qed.
Print Assumptions C62_batch_finishes.

(** C62. The owner can always go on, possibly after a store of its own buffer has reached memory. *)
Theorem C62_owner_not_blocked : forall s, treach true s ->
  exists s', tstep true s TCons = Some s' \/ tstep true s (TFlush Owner) = Some s'.
Proof. exact tso_not_blocked. Qed.
Print Assumptions C62_owner_not_blocked.

(** C62. A wait ends when one thread has done its next step and its oldest store has reached memory. *)
Theorem C62_wait_ends : forall s, treach true s -> tstalled s -> exists u l s', texec true s l s' /\ ~ tstalled s' /\
  (l = [TFlush (Thr u)] \/ l = [TGo u; TFlush (Thr u)]).
Proof. exact tso_wait_ends. Qed.
Print Assumptions C62_wait_ends.

(** C62. If the swap does not wait for the stores before it (its meaning with an acquire only; the barrier of queue.h:223 is
    commented out), a block is lost: everything is at rest, the queue looks empty, and the second block was not delivered. *)
Theorem C62_no_barrier_refuted : exists s, treach false s /\ (forall w, tbuf s w = []) /\ (forall t, tpc s t = PIdle) /\
  tcs s = CIdle /\ thd s = 0 /\ ttl s = 200 /\ pubs (ttr s) = [(100, 1001); (200, 2001)] /\ dels (ttr s) = [(100, 1001)].
Proof.
  exists (tend false tl_lost). split; [apply tend_reach; vm_compute; reflexivity|].
  split; [intros [|[|[|[|t]]]]; vm_compute; reflexivity|]. split; [intros [|[|[|[|t]]]]; vm_compute; reflexivity|].
  repeat split; vm_compute; reflexivity.
Qed.
Print Assumptions C62_no_barrier_refuted.

(** The hypotheses are met: a link waits in the buffer of a thread that has returned and goes on, the owner waits for it. *)
Example C62_met : treach true (tend true tl_stall) /\ tstalled (tend true tl_stall) /\ ttaken (tend true tl_stall) /\
  toutstanding (tend true tl_stall) = 2%nat /\ (forall t e p, tpc (tend true tl_stall) t <> PLink e p) /\
  tbuf (tend true tl_stall) (Thr 2) = [SNext 100 200; WN 400 6].
Proof.
  split; [apply tend_reach; vm_compute; reflexivity|]. split; [|split; [vm_compute; exact I|split; [vm_compute; reflexivity|split]]].
  - exists 100, 200, 100. split; [vm_compute; reflexivity|]. split; [discriminate|]. exists 2%nat, 200. split; [discriminate|]. right.
    vm_compute. left. reflexivity.
  - intros [|[|[|[|t]]]] e p; vm_compute; discriminate.
  - vm_compute. reflexivity.
Qed.
