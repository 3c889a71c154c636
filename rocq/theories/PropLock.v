(** Spinlock: C27, and the double lock of the statistics function (C40). *)
From Verif Require Import LockModel LockSpec LockProofs.
From Coq Require Import ZArith List Bool Lia.
Import ListNotations.
Open Scope Z_scope.

(** C27. At most one thread holds the lock, whatever the interleaving; a successful trylock counts as lock. *)
Theorem C27_mutual_exclusion : forall s t u, lreach s -> held s t = true -> held s u = true -> t = u.
Proof. exact mutex. Qed.
Print Assumptions C27_mutual_exclusion.

(** C27. Seen from outside: acquisitions only happen when the lock is free, releases come from the owner, refusals of trylock
    only happen while somebody owns the lock. *)
Theorem C27_trace : forall s, lreach s -> exists o, owner None (ltr s) = Some o /\ forall t, held s t = true <-> o = Some t.
Proof. exact trace_ok. Qed.
Print Assumptions C27_trace.

(** C27. When the lock is free, any waiting thread takes it in at most two of its own steps. *)
Theorem C27_free_lock_can_be_taken : forall s t, lreach s -> (forall u, held s u = false) -> waiting s t ->
  exists n s', (n <= 2)%nat /\ lexec s (repeat (LGo t) n) s' /\ held s' t = true /\ lp s' t = LOut.
Proof. exact free_taken. Qed.
Print Assumptions C27_free_lock_can_be_taken.

(** C27. trylock takes the lock, or somebody holds it. *)
Theorem C27_trylock : forall s t s', lreach s -> lp s t = LTry -> lstep s (LGo t) = Some s' ->
  (held s' t = true /\ ltr s' = ltr s ++ [EAcq t]) \/ (exists u, held s u = true /\ ltr s' = ltr s ++ [ERefused t]).
Proof. exact refused_held. Qed.
Print Assumptions C27_trylock.

(** C40. sctk_alloc_chain_get_stat (sctk_allocator.c:2724 and 2745) calls lock where it should unlock: a thread that holds the lock
    and calls lock again never comes back, and no other thread ever gets the lock. *)
Theorem C40_double_lock_refuted : forall s l s' t, lreach s -> held s t = true -> waiting s t -> lexec s l s' ->
  waiting s' t /\ forall u, held s' u = true <-> u = t.
Proof. exact self_deadlock. Qed.
Print Assumptions C40_double_lock_refuted.

Fixpoint lplay (s : lst) (l : list lact) : option lst :=
  match l with [] => Some s | a :: r => match lstep s a with Some s1 => lplay s1 r | None => None end end.
Lemma lplay_exec : forall l s s', lplay s l = Some s' -> lexec s l s'.
Proof.
  induction l as [|a l IH]; intros s s' H; cbn in H; [injection H as <-; constructor|].
  destruct (lstep s a) eqn:E; [|discriminate]. econstructor; [exact E|exact (IH _ _ H)].
Qed.

(** Three threads compete; thread 1 holds the lock, thread 2 spins, thread 3 was refused. *)
Example C27_nontrivial : exists s, lreach s /\ held s 1%nat = true /\ waiting s 2%nat /\
  ltr s = [EAcq 1; ERel 1; EAcq 2; ERel 2; EAcq 1; ERefused 3].
Proof.
  eexists. split.
  - exists [CallLock 1; CallLock 2; LGo 1; LGo 2; LGo 2; CallUnlock 1; LGo 1; LGo 2; LGo 2; CallLock 1; LGo 1; CallUnlock 2; LGo 2; LGo 1; LGo 1;
            CallTry 3; CallLock 2; LGo 3; LGo 2]%nat.
    apply lplay_exec. vm_compute. reflexivity.
  - vm_compute. tauto.
Qed.
Example C27_free_waiting : exists s, lreach s /\ (forall u, held s u = false) /\ waiting s 2%nat.
Proof.
  eexists. split; [exists [CallLock 1; CallLock 2; LGo 1; LGo 2; CallUnlock 1; LGo 1]%nat; apply lplay_exec; vm_compute; reflexivity|].
  split; [|vm_compute; tauto]. intros [|[|u]]; reflexivity.
Qed.
Example C40_double_lock_happens : exists s, lreach s /\ held s 1%nat = true /\ waiting s 1%nat.
Proof.
  eexists. split; [exists [CallLock 1; LGo 1; CallLock 1]%nat; apply lplay_exec; vm_compute; reflexivity|]. vm_compute. tauto.
Qed.
