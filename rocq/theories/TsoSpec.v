(** Vocabulary of the queue on a machine with store buffers.  Publications, deliveries, calls and returns are read in the trace
    with the functions of MpscfSpec.v. *)
From Verif Require Import MpscfModel MpscfSpec TsoModel.
From Coq Require Import ZArith List Bool.
Import ListNotations.
Open Scope Z_scope.

Inductive texec (fence : bool) : tst -> list tact -> tst -> Prop :=
| texec_nil : forall s, texec fence s [] s
| texec_cons : forall s a s1 l s2, tstep fence s a = Some s1 -> texec fence s1 l s2 -> texec fence s (a :: l) s2.
Definition treach (fence : bool) (s : tst) : Prop := exists n p h l, texec fence (t0 n p h) l s.

(** The consumer waits for the link of a producer: not stored yet, or still in the buffer of the producer. *)
Definition tstalled (s : tst) : Prop :=
  exists h t cur, tcs s = CWait h t cur /\ cur <> t /\
    exists u e, e <> 0 /\ (tpc s u = PLink e cur \/ In (SNext cur e) (tbuf s (Thr u))).
Definition ttaken (s : tst) : Prop :=
  match tcs s with CWait _ _ _ | CAdv _ _ _ | CWalk _ | CDel _ _ => True | _ => False end.
Definition toutstanding (s : tst) : nat := (length (pubs (ttr s)) - length (dels (ttr s)))%nat.

(** An execution whose steps all start in states satisfying [P], with [n] steps of the consumer made while not stalled. *)
Inductive trun (P : tst -> Prop) : tst -> nat -> tst -> Prop :=
| trun_nil : forall s, trun P s 0 s
| trun_cons : forall s s1 n s2, P s -> ~ tstalled s -> tstep true s TCons = Some s1 -> trun P s1 n s2 -> trun P s (S n) s2
| trun_other : forall s a s1 n s2, P s -> a <> TCons \/ tstalled s -> tstep true s a = Some s1 -> trun P s1 n s2 -> trun P s n s2.

(** No producer is between its swap and its link, and every store has reached memory. *)
Definition settled (s : tst) : Prop := (forall w, tbuf s w = []) /\ (forall t e p, tpc s t <> PLink e p).
(** Only the owner and the memory system act. *)
Definition quiet_act (a : tact) : Prop := match a with TCons | TFlush _ => True | _ => False end.
