(** Remote free queue: C24, C25, C26. *)
From Verif Require Import MpscfModel MpscfSpec MpscfProofs MpscfProps MpscfGiven.
From Coq Require Import ZArith List Bool Lia.
Import ListNotations.
Open Scope Z_scope.

(** C24. At any moment of any interleaving, the blocks handed to the owner are the first ones of the published ones:
    none is duplicated, none is invented, none is skipped. *)
Theorem C24_delivered_once : forall s, reach s -> prefix (dels (tr s)) (pubs (tr s)).
Proof. exact dels_prefix. Qed.
Print Assumptions C24_delivered_once.

(** C24. When no producer is between its swap and its link, if the queue looks empty to the idle owner then nothing is
    left: everything published was delivered. *)
Theorem C24_empty_means_all_delivered : forall s, reach s -> (forall t, ~ in_flight s t) -> cns s = CIdle -> qhd s = 0 ->
  dels (tr s) = pubs (tr s).
Proof. exact quiescent. Qed.
Print Assumptions C24_empty_means_all_delivered.

(** C24. From any reachable state where no producer is between its swap and its link, the owner alone collects everything
    that was published. *)
Theorem C24_owner_collects_all : forall s, reach s -> (forall t, ~ in_flight s t) ->
  exists n s', exec s (repeat Cons n) s' /\ cns s' = CIdle /\ dels (tr s') = pubs (tr s') /\ pubs (tr s') = pubs (tr s).
Proof. exact drain. Qed.
Print Assumptions C24_owner_collects_all.

(** C24. A thread out of the function has published all the blocks it freed, once each and in order. *)
Theorem C24_returned_is_published : forall s t, reach s -> prd s t = PIdle ->
  pubs_of t (tr s) = starts_of t (tr s) /\ rets_of t (tr s) = length (starts_of t (tr s)).
Proof. exact idle_published. Qed.
Print Assumptions C24_returned_is_published.

(** C24. A block is with the queue from the call that gives it to its delivery: an idle thread can give it (again) exactly when it has been delivered as
    often as it was given, and it is never given twice without a delivery. *)
Theorem C24_given_again : forall s t e v, reach s -> prd s t = PIdle -> e <> 0 ->
  ((exists s', step s (Start t e v) = Some s') <-> given e (tr s) = back e (tr s)) /\
  (given e (tr s) = back e (tr s) \/ given e (tr s) = S (back e (tr s))).
Proof. exact give_again. Qed.
Print Assumptions C24_given_again.

(** Both cases, with the same idle thread: block 100 was delivered, block 300 is in the queue. *)
Example C24_given_nontrivial : reach (at_end l_done) /\ prd (at_end l_done) 2%nat = PIdle /\
  given 100 (tr (at_end l_done)) = 1%nat /\ back 100 (tr (at_end l_done)) = 1%nat /\
  given 300 (tr (at_end l_done)) = 1%nat /\ back 300 (tr (at_end l_done)) = O.
Proof. split; [apply at_end_reach; vm_compute; reflexivity|]. repeat split; vm_compute; reflexivity. Qed.

(** C25. Per producer, publications follow program order, a call is published before it returns, and at most one call
    is unfinished; with C24_delivered_once, deliveries follow the order of publication. *)
Theorem C25_program_order : forall s t, reach s -> prefix (pubs_of t (tr s)) (starts_of t (tr s)) /\
  (length (starts_of t (tr s)) <= S (rets_of t (tr s)))%nat /\ (rets_of t (tr s) <= length (pubs_of t (tr s)))%nat.
Proof. exact program_order. Qed.
Print Assumptions C25_program_order.

(** C26. No assertion of the queue fails, and neither the owner nor a producer touches an entry that is not in the
    queue (such an access leads to [CBad] or [PBad] in the model). *)
Theorem C26_no_dangling_link : forall s, reach s -> cns s <> CBad /\ forall t, prd s t <> PBad.
Proof. exact never_bad. Qed.
Print Assumptions C26_no_dangling_link.

(** C26. Once it has taken a batch, the owner finishes after a bounded number of its own steps, whatever the producers do,
    not counting the steps where it waits for a producer caught between swap and link. *)
Theorem C26_batch_finishes : forall s n s', reach s -> run taken s n s' -> (n <= 4 * outstanding s + 1)%nat.
Proof. exact bounded. Qed.
Print Assumptions C26_batch_finishes.

(** C26. Before that, at most three steps. *)
Theorem C26_batch_taken : forall s n s', run fetching s n s' -> (n <= 3)%nat.
Proof. exact fetch_three. Qed.
Print Assumptions C26_batch_taken.

(** C26. A wait ends with one step of a producer that was in the middle of its insertion. *)
Theorem C26_wait_ends : forall s, reach s -> stalled s -> exists u s', in_flight s u /\ step s (Go u) = Some s' /\ ~ stalled s'.
Proof. exact stall_ends. Qed.
Print Assumptions C26_wait_ends.

Example queue_stalled : reach (at_end l_stall) /\ stalled (at_end l_stall) /\ taken (at_end l_stall) /\ outstanding (at_end l_stall) = 2%nat.
Proof.
  split; [apply at_end_reach; vm_compute; reflexivity|]. split; [|split; vm_compute; [exact I|reflexivity]].
  exists 100, 200, 100, 2%nat, 200. split; [vm_compute; reflexivity|]. split; [discriminate|vm_compute; reflexivity].
Qed.

Example queue_two_delivered : reach (at_end l_done) /\ dels (tr (at_end l_done)) = [(100, 1001); (200, 2001)] /\
  pubs (tr (at_end l_done)) = [(100, 1001); (200, 2001); (300, 3001)] /\
  starts_of 2 (tr (at_end l_done)) = [(200, 2001); (300, 3001)] /\ prd (at_end l_done) 2%nat = PIdle.
Proof.
  split; [apply at_end_reach; vm_compute; reflexivity|]. repeat split; vm_compute; reflexivity.
Qed.

(** The debugging helper that counts the entries never returns on a non-empty list: it loops for ever or reads through
    NULL. *)
Theorem C44_count_entries_refuted : forall fuel n e, e <> 0 ->
  count_entries fuel n e e 0 = None \/ count_entries fuel n e e 0 = Some None.
Proof. intros fuel n e NE. exact (count_diverges fuel n e e 0 NE). Qed.
Print Assumptions C44_count_entries_refuted.
