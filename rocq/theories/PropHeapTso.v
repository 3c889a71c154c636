(** Property C85: a shared chain and the memory of its blocks with store buffers. *)
From Verif Require Import LockModel HeapTsoModel HeapTsoSpec HeapTsoProofs HeapTsoEx.
From Coq Require Import ZArith List Bool.
Import ListNotations.
Open Scope Z_scope.

(** C85. If the calls of a thread-safe chain are right one after another, every execution with the store buffers of x86, of any number of threads, is a story
    without buffers: each call acts at one moment between call and return, each load of a thread in a block gives the value stored last, also when the block
    came from another thread by a plain store of the pointer, and a call gets memory that nobody has. *)
Theorem C85_story : forall A P gives takes heads m o s, right_alone A P gives takes heads m o -> hreach A P gives takes heads true m o s ->
  exists q, story A P gives takes heads (q0 A m o) (htr A s) = Some q /\ forall t, qc A q t = SOut A <-> hp A s t = HOut A.
Proof. intros A P gives takes heads m o s R. exact (heap_story A P gives takes heads m o R s). Qed.
Print Assumptions C85_story.
(** When the buffers are empty and nobody is in a call, memory is that of the story. *)
Theorem C85_memory : forall A P gives takes heads m o s, right_alone A P gives takes heads m o -> hreach A P gives takes heads true m o s ->
  (forall t, hbuf A s t = []) -> (forall t a p, hp A s t <> HIn A a p) ->
  exists q, story A P gives takes heads (q0 A m o) (htr A s) = Some q /\ (forall c, hm A s c = qm A q c) /\ forall c, hown A s c = qo A q c.
Proof. intros A P gives takes heads m o s R. exact (heap_memory A P gives takes heads m o R s). Qed.
Print Assumptions C85_memory.
(** One thread at a time is in the body of a call. *)
Theorem C85_alone : forall A P gives takes heads m o s t u a b p r, right_alone A P gives takes heads m o -> hreach A P gives takes heads true m o s ->
  hp A s t = HIn A a p -> hp A s u = HIn A b r -> t = u.
Proof. intros A P gives takes heads m o s t u a b p r R. exact (heap_mutex A P gives takes heads m o R s t u a b p r). Qed.
Print Assumptions C85_alone.
(** When nobody is in a body, a waiting thread gets in with two accesses once the buffers of two threads have reached memory. *)
Theorem C85_enters : forall A P gives takes heads m o s t a, right_alone A P gives takes heads m o -> hreach A P gives takes heads true m o s ->
  (forall u b p, hp A s u <> HIn A b p) -> hp A s t = HSwap A a \/ hp A s t = HSpin A a ->
  exists u n i k s', (k <= 2)%nat /\ hexec A P gives takes heads true s (repeat (AFlush A u 0) n ++ repeat (AFlush A t 0) i ++ repeat (AGo A t) k) s' /\
    hp A s' t = HIn A a (P a).
Proof. intros A P gives takes heads m o s t a R. exact (heap_taken A P gives takes heads m o R s t a). Qed.
Print Assumptions C85_enters.

(** On a machine whose stores overtake each other: the unlock overtakes the mark of the block, and two calls return the same block ... *)
Theorem C85_weak_unlock_refuted : exists s, hreach ecall ebody egives etakes eheads false em eo s /\
  htr _ s = [HvCall _ 1 EMalloc; HvOp _ 1 2; HvRet _ 1 2; HvCall _ 2 EMalloc; HvOp _ 2 2; HvRet _ 2 2]%nat /\
  story ecall ebody egives etakes eheads (q0 _ em eo) (htr _ s) = None.
Proof.
  pose (l := [ACall _ 1 EMalloc; AGo _ 1; AGo _ 1; AGo _ 1; AGo _ 1; AGo _ 1; AGo _ 1; AFlush _ 1 2;
              ACall _ 2 EMalloc; AGo _ 2; AGo _ 2; AGo _ 2; AGo _ 2; AGo _ 2; AGo _ 2]%nat).
  destruct (eplay false (h0 _ em eo) l) as [s|] eqn:E; [|vm_compute in E; discriminate].
  exists s. split; [exists l; exact (eplay_exec _ _ _ _ E)|]. vm_compute in E. injection E as <-. split; vm_compute; reflexivity.
Qed.
Print Assumptions C85_weak_unlock_refuted.
(** ... and the pointer overtakes the content: a thread that gets a block reads an old value in it. *)
Theorem C85_weak_hand_refuted : exists s, hreach ecall ebody egives etakes eheads false em eo s /\
  htr _ s = [HvCall _ 1 EMalloc; HvOp _ 1 2; HvRet _ 1 2; HvWr _ 1 3 77; HvSend _ 1 2 eblk; HvGot _ 2 eblk; HvRd _ 2 3 0]%nat /\
  story ecall ebody egives etakes eheads (q0 _ em eo) (htr _ s) = None.
Proof.
  pose (l := [ACall _ 1 EMalloc; AGo _ 1; AGo _ 1; AGo _ 1; AGo _ 1; AGo _ 1; AGo _ 1; AWrite _ 1 3 77; ASend _ 1 2 eblk; AFlush _ 1 4; ARead _ 2 3]%nat).
  destruct (eplay false (h0 _ em eo) l) as [s|] eqn:E; [|vm_compute in E; discriminate].
  exists s. split; [exists l; exact (eplay_exec _ _ _ _ E)|]. vm_compute in E. injection E as <-. split; vm_compute; reflexivity.
Qed.
Print Assumptions C85_weak_hand_refuted.

(** A heap of one block meets the hypothesis; thread 1 gets the block, writes in it and hands it to thread 2 while all its stores wait in its buffer and thread 3
    waits for the lock; then thread 2 reads the content, thread 3 scans the header, and thread 2 frees. *)
Example C85_nontrivial : right_alone ecall ebody egives etakes eheads em eo /\
  exists s, hreach ecall ebody egives etakes eheads true em eo s /\ hbuf _ s 1%nat = [WData 0 1; WData 1 16; WUnl; WData 3 77; WHand 2 eblk] /\ hp _ s 3%nat = HSpin _ EScan /\
  exists s', hreach ecall ebody egives etakes eheads true em eo s' /\ htr _ s' = htr _ s ++ [HvGot _ 2 eblk; HvRd _ 2 3 77; HvOp _ 3 16; HvCall _ 2 EFree]%nat /\
    hp _ s' 2%nat = HIn _ EFree (PWr 2 16 (PWr 0 0 (PRet 0))).
Proof.
  split; [exact e_right|].
  pose (l := [ACall _ 1 EMalloc; AGo _ 1; AGo _ 1; AGo _ 1; AGo _ 1; AGo _ 1; AGo _ 1; AWrite _ 1 3 77; ASend _ 1 2 eblk; ACall _ 3 EScan; AGo _ 3]%nat).
  destruct (eplay true (h0 _ em eo) l) as [s|] eqn:E; [|vm_compute in E; discriminate].
  exists s. split; [exists l; exact (eplay_exec _ _ _ _ E)|].
  pose (l' := l ++ [AFlush _ 1 0; AFlush _ 1 0; AFlush _ 1 0; AGo _ 3; AGo _ 3; AFlush _ 1 0; AFlush _ 1 0; ARead _ 2 3; AGo _ 3; AGo _ 3; AGo _ 3; ACall _ 2 EFree; AFlush _ 3 0; AGo _ 2; AGo _ 2]%nat).
  destruct (eplay true (h0 _ em eo) l') as [s'|] eqn:E'; [|vm_compute in E'; discriminate].
  assert (R' : hreach ecall ebody egives etakes eheads true em eo s') by (exists l'; exact (eplay_exec _ _ _ _ E')).
  vm_compute in E. injection E as <-. split; [reflexivity|]. split; [reflexivity|]. exists s'. split; [exact R'|].
  vm_compute in E'. injection E' as <-. split; reflexivity.
Qed.
