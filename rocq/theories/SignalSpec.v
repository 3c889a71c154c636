(** Handlers of signals that call the library (the program installs them; /repo blocks no signal).  A handler runs in a thread, at any time,
    before what the thread has left to do, and it may be interrupted in its turn.  Specification only. *)
From Verif Require Import OrderSpec OrderModel MpscfModel MpscfSpec.
From Coq Require Import List Bool Arith.
Import ListNotations.

Section Signals.
Variable lk : Type.
Variable lk_eqb : lk -> lk -> bool.
Variable call : list (op lk) -> Prop.
(** A signal reaches thread [t]; its handler does the call [r], then the thread goes on. *)
Definition interrupt (s : ost lk) (t : nat) (r : list (op lk)) : ost lk := mkO (owner s) (tdo lk s t (r ++ todo s t)).
(** The threads go on, start calls, or run handlers for which [P] holds. *)
Inductive sgoes (P : ost lk -> nat -> list (op lk) -> Prop) : ost lk -> ost lk -> Prop :=
| sg_go : forall s s', goes lk lk_eqb call s s' -> sgoes P s s'
| sg_signal : forall s t r, call r -> P s t r -> sgoes P s (interrupt s t r).
Inductive sgoes_star (P : ost lk -> nat -> list (op lk) -> Prop) : ost lk -> ost lk -> Prop :=
| ss_refl : forall s, sgoes_star P s s
| ss_step : forall s s1 s2, sgoes P s s1 -> sgoes_star P s1 s2 -> sgoes_star P s s2.
(** Any handler, at any time. *)
Definition anytime : ost lk -> nat -> list (op lk) -> Prop := fun _ _ _ => True.
(** Whatever the threads and the handlers do, thread [t] never comes back to [rest]. *)
Definition never_back (s : ost lk) (t : nat) (rest : list (op lk)) : Prop :=
  forall s', sgoes_star anytime s s' -> exists x, x <> [] /\ todo s' t = x ++ rest.
(** Whatever the threads and the handlers do, the lock is never free. *)
Definition never_free (s : ost lk) (l : lk) : Prop := forall s', sgoes_star anytime s s' -> owner s' l <> None.
End Signals.

(** The order of the locks: start-up, chains, egg chain, sources, regions, round robin, page map. *)
Definition level (l : lk) : nat :=
  match l with LInit => 0 | LChain c => if Nat.eqb c 0 then 2 else 1 | LSrc _ => 3 | LReg => 4 | LRobin => 5 | LPage => 6 end.
(** The handler only takes locks that come after those that the thread holds. *)
Definition in_order (s : ost lk) (t : nat) (r : list (op lk)) : Prop :=
  forall l k, owner s l = Some t -> In (Take k) r -> level l < level k.

(** ** Queues of remote frees *)
(** The owner of the queue, anywhere in its purge, is interrupted; its handler calls malloc or free, which purge the queue until they leave it
    (the other threads go on); then the owner goes on where it was. *)
Definition handler_purge (s s' : qst) : Prop :=
  exists l s1, exec (set_cons s CIdle) l s1 /\ cns s1 = CIdle /\ s' = set_cons s1 (cns s).
(** Before the owner has read the head, or when it has cleared it and not yet swapped the tail. *)
Definition may_enter (c : cpc) : Prop := c = CIdle \/ c = CLoad \/ exists h, c = CSwap h.
(** Executions with such handlers. *)
Inductive hreach : qst -> Prop :=
| hr_0 : forall n p, hreach (q0 n p)
| hr_step : forall s a s', hreach s -> step s a = Some s' -> hreach s'
| hr_purge : forall s s', hreach s -> may_enter (cns s) -> handler_purge s s' -> hreach s'.

(** The same with handlers in handlers, at every place but one: not between the read of the head and its clear (queue.h 212-222). *)
Definition may_enter_too (c : cpc) : Prop := forall h, c <> CClear h.
(** Executions with such handlers (sctk_allocator.c 1787-1825). *)
Inductive hexec : qst -> qst -> Prop :=
| hx_nil : forall s, hexec s s
| hx_step : forall s a s1 s2, step s a = Some s1 -> hexec s1 s2 -> hexec s s2
| hx_purge : forall s s1 s2, may_enter_too (cns s) -> hexec (set_cons s CIdle) s1 -> cns s1 = CIdle ->
    hexec (set_cons s1 (cns s)) s2 -> hexec s s2.
