(** What the start-up should guarantee. *)
From Verif Require Import Res InitModel.
From Coq Require Import List Bool Arith.
Import ListNotations.

(** The machine has at most 128 nodes; answers about nodes are nodes of the machine. *)
Definition mach_ok (m : machine) : Prop := nodes m <= 128.
Definition iact_ok (m : machine) (a : iact) : Prop :=
  match a with Go _ o r => (forall i, o = Some i -> i < nodes m) /\ (nodes m = 0 \/ r < nodes m) | _ => True end.
Inductive ireach (m : machine) : ist -> Prop :=
| ireach_0 : ireach m ist0
| ireach_s s a s' : ireach m s -> iact_ok m a -> istep m a s = Ok s' -> ireach m s'.
(** Executions from a state, actions in order. *)
Inductive iruns (m : machine) : ist -> list iact -> ist -> Prop :=
| iruns_0 s : iruns m s [] s
| iruns_s s a s1 l s2 : iact_ok m a -> istep m a s = Ok s1 -> iruns m s1 l s2 -> iruns m s (a :: l) s2.

(** The order in which things are initialised. *)
Definition basics (m : machine) : list doing :=
  [ConfigDefaults; EggChain] ++ (if hw m then [Topology; Source 128] else [Source 0]) ++ [ConfigUser; EggSource].
Definition all_done (m : machine) : list doing :=
  basics m ++ (if hw m then map Source (seq 0 (Nat.max 1 (nodes m))) ++ [OnNode] else []).
(** The thread has left base_init. *)
Definition started (p : place) : Prop := match p with Chain | St1 _ | St2 _ | Pick _ | Got _ => True | _ => False end.
(** The thread has the lock of base_init. *)
Definition inside_init (p : place) : Prop := match p with Check | In_ _ | Unlock => True | _ => False end.
