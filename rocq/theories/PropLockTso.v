(** The spinlock on a machine with store buffers: C63. *)
From Verif Require Import LockModel LockTsoModel LockTsoSpec LockTsoProofs.
From Coq Require Import ZArith List Bool Lia.
Import ListNotations.
Open Scope Z_scope.

(** C63. At most one thread is between lock and unlock. *)
Theorem C63_mutual_exclusion : forall d s t u, mreach true d s -> mheld s t = true -> mheld s u = true -> t = u.
Proof. exact tso_mutex. Qed.
Print Assumptions C63_mutual_exclusion.

(** C63. The sections under the lock follow one another, and each read in a section gives the value written last, in this section
    or in an earlier one, by whatever thread. *)
Theorem C63_sections : forall d s, mreach true d s ->
  exists o m, sections d None (mtr s) = Some (o, m) /\ (forall t, mheld s t = true <-> o = Some t).
Proof. exact tso_sections. Qed.
Print Assumptions C63_sections.

(** C63. When the lock word says free, everything written in the sections is in memory. *)
Theorem C63_visible : forall d s, mreach true d s -> mword s = 0 ->
  exists m, sections d None (mtr s) = Some (None, m) /\ forall a, mdata s a = m a.
Proof. exact tso_visible. Qed.
Print Assumptions C63_visible.

(** C63. When no thread is between lock and unlock, a waiting thread gets the lock in two of its steps once the stores of one
    thread have reached memory. *)
Theorem C63_free_lock_can_be_taken : forall d s t, mreach true d s -> (forall u, mheld s u = false) -> mp s t = LSwap \/ mp s t = LSpin ->
  exists u n k s', (k <= 2)%nat /\ mexec true s (repeat (MFlush u 0) n ++ repeat (MGo t) k) s' /\ mheld s' t = true /\ mp s' t = LOut.
Proof. exact tso_taken. Qed.
Print Assumptions C63_free_lock_can_be_taken.

(** C63. trylock can be refused although no thread is between lock and unlock (compare C27_trylock). *)
Theorem C63_trylock_refuted : exists d s s', mreach true d s /\ (forall u, mheld s u = false) /\ mp s 2%nat = LTry /\
  mstep true s (MGo 2) = Some s' /\ mtr s' = mtr s ++ [MRefused 2] /\ mheld s' 2%nat = false.
Proof.
  pose (l := [MLock 1; MGo 1; MUnlock 1; MGo 1; MTry 2]%nat).
  destruct (mplay true (m0 (fun _ => 0)) l) as [s|] eqn:E; [|vm_compute in E; discriminate].
  exists (fun _ => 0), s. assert (R : mreach true (fun _ => 0) s) by (exists l; exact (mplay_exec _ _ _ _ E)).
  vm_compute in E. injection E as <-. eexists. split; [exact R|]. split; [intros [|[|u]]; reflexivity|]. split; [reflexivity|].
  split; [vm_compute; reflexivity|]. split; reflexivity.
Qed.
Print Assumptions C63_trylock_refuted.

(** C63. If stores may overtake each other (the unlock is a plain store, not a release), a section can read an old value. *)
Theorem C63_weak_order_refuted : exists d s, mreach false d s /\ mheld s 2%nat = true /\
  mtr s = [MAcq 1; MWr 1 8 77; MRel 1; MAcq 2; MRd 2 8 0]%nat /\ d 8 = 0.
Proof.
  pose (l := [MLock 1; MGo 1; MWrite 1 8 77; MUnlock 1; MGo 1; MFlush 1 1; MLock 2; MGo 2; MRead 2 8]%nat).
  destruct (mplay false (m0 (fun _ => 0)) l) as [s|] eqn:E; [|vm_compute in E; discriminate].
  exists (fun _ => 0), s. split; [exists l; exact (mplay_exec _ _ _ _ E)|]. vm_compute in E. injection E as <-. repeat split; reflexivity.
Qed.
Print Assumptions C63_weak_order_refuted.

(** Two sections of two threads, a third thread waits; the second section sees what the first one wrote. *)
Example C63_met : exists s, mreach true (fun _ => 0) s /\ mheld s 2%nat = true /\ mp s 3%nat = LSpin /\ mbuf s 2%nat = [WData 9 5] /\
  mtr s = [MAcq 1; MWr 1 8 77; MRel 1; MAcq 2; MRd 2 8 77; MWr 2 9 5; MRd 2 9 5]%nat.
Proof.
  pose (l2 := [MLock 1; MGo 1; MWrite 1 8 77; MUnlock 1; MGo 1; MLock 2; MLock 3; MGo 2; MGo 2; MFlush 1 0; MFlush 1 0; MGo 2; MGo 2; MGo 3;
               MRead 2 8; MWrite 2 9 5; MRead 2 9]%nat).
  destruct (mplay true (m0 (fun _ => 0)) l2) as [s|] eqn:E; [|vm_compute in E; discriminate].
  exists s. split; [exists l2; exact (mplay_exec _ _ _ _ E)|]. vm_compute in E. injection E as <-. repeat split; reflexivity.
Qed.
(** Nobody holds the lock, thread 1 has released it but its stores are in its buffer, thread 2 waits. *)
Example C63_free_met : exists s, mreach true (fun _ => 0) s /\ (forall u, mheld s u = false) /\ mp s 2%nat = LSpin /\ mbuf s 1%nat = [WData 8 77; WUnl].
Proof.
  pose (l := [MLock 1; MGo 1; MWrite 1 8 77; MUnlock 1; MGo 1; MLock 2; MGo 2]%nat).
  destruct (mplay true (m0 (fun _ => 0)) l) as [s|] eqn:E; [|vm_compute in E; discriminate].
  exists s. split; [exists l; exact (mplay_exec _ _ _ _ E)|]. vm_compute in E. injection E as <-. split; [intros [|[|u]]; reflexivity|].
  repeat split; reflexivity.
Qed.
