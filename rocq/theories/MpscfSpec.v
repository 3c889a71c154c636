(** Vocabulary of the queue properties: what can be read in the trace of events. *)
From Verif Require Import MpscfModel.
From Coq Require Import ZArith List Bool.
Import ListNotations.
Open Scope Z_scope.

(** All interleavings: any finite sequence of possible actions, from any contents of memory. *)
Inductive exec : qst -> list act -> qst -> Prop :=
| exec_nil : forall s, exec s [] s
| exec_cons : forall s a s1 l s2, step s a = Some s1 -> exec s1 l s2 -> exec s (a :: l) s2.
Definition reach (s : qst) : Prop := exists n p l, exec (q0 n p) l s.

(** Publications and deliveries, in order. *)
Fixpoint pubs (l : list event) : list (Z * Z) :=
  match l with [] => [] | EPub _ e v :: r => (e, v) :: pubs r | _ :: r => pubs r end.
Fixpoint dels (l : list event) : list (Z * Z) :=
  match l with [] => [] | EDel e v :: r => (e, v) :: dels r | _ :: r => dels r end.
(** Of one thread: calls started, calls published, number of calls returned. *)
Fixpoint starts_of (t : nat) (l : list event) : list (Z * Z) :=
  match l with
  | [] => []
  | EStart u e v :: r => if Nat.eqb u t then (e, v) :: starts_of t r else starts_of t r
  | _ :: r => starts_of t r
  end.
Fixpoint pubs_of (t : nat) (l : list event) : list (Z * Z) :=
  match l with
  | [] => []
  | EPub u e v :: r => if Nat.eqb u t then (e, v) :: pubs_of t r else pubs_of t r
  | _ :: r => pubs_of t r
  end.
Fixpoint rets_of (t : nat) (l : list event) : nat :=
  match l with
  | [] => O
  | ERet u :: r => if Nat.eqb u t then S (rets_of t r) else rets_of t r
  | _ :: r => rets_of t r
  end.
Definition prefix {A} (a b : list A) : Prop := exists c, b = a ++ c.

(** Producer [t] has swapped the tail and not yet linked its entry. *)
Definition in_flight (s : qst) (t : nat) : Prop := exists e p, prd s t = PLink e p.
(** The consumer waits for the link of a producer caught between swap and link. *)
Definition stalled (s : qst) : Prop :=
  exists h t cur u e, cns s = CWait h t cur /\ cur <> t /\ prd s u = PLink e cur.
(** The consumer has taken a batch and not finished with it. *)
Definition taken (s : qst) : Prop :=
  match cns s with CWait _ _ _ | CAdv _ _ _ | CWalk _ | CDel _ _ => True | _ => False end.
Definition outstanding (s : qst) : nat := (length (pubs (tr s)) - length (dels (tr s)))%nat.

(** [run P s n s']: an execution of any actions whose steps all start in states satisfying [P], with [n] steps of the
    consumer made while it was not stalled. *)
Inductive run (P : qst -> Prop) : qst -> nat -> qst -> Prop :=
| run_nil : forall s, run P s 0 s
| run_cons : forall s s1 n s2, P s -> ~ stalled s -> step s Cons = Some s1 -> run P s1 n s2 -> run P s (S n) s2
| run_other : forall s a s1 n s2, P s -> a <> Cons \/ stalled s -> step s a = Some s1 -> run P s1 n s2 -> run P s n s2.

(** The consumer has seen an entry and is about to take the batch. *)
Definition fetching (s : qst) : Prop :=
  match cns s with CLoad | CClear _ | CSwap _ => True | _ => False end.
