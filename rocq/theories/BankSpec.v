(** What the search for the high bandwidth bank should answer. *)
From Verif Require Import Word Res NodeModel BankModel.
From Coq Require Import ZArith String List Bool.
Import ListNotations.
Open Scope Z_scope.

(** hwloc numbers the nodes from 0 in the order of the list. *)
Definition numbered (ns : list bank) : Prop := forall i b, nth_error ns i = Some b -> b_idx b = Z.of_nat i.
Definition has_bank (ns : list bank) (v : Z) : Prop := exists b, In b ns /\ b_sub b = Some "MCDRAM"%string /\ b_idx b = v.
(** [v] is a right answer: the index of a high bandwidth bank, -1 if there is none. *)
Definition right_answer (ns : list bank) (v : Z) : Prop := has_bank ns v \/ (v = -1 /\ forall w, ~ has_bank ns w).
(** States of any number of threads; nobody is inside the function. *)
Inductive breach (ns : list bank) : bst -> Prop :=
| br0 : breach ns b0
| br1 : forall s t, breach ns s -> breach ns (bgo ns t s).
Definition outside (p : place) : Prop := exists v, p = BOut v.
Definition nobody (s : bst) : Prop := forall t, outside (b_at s t).
(** The call of [t] ends in this step with answer [v]. *)
Definition answers (ns : list bank) (s : bst) (t : nat) (v : Z) : Prop := b_at s t = BRet /\ b_at (bgo ns t s) t = BOut (Some v).
(** A node close to the processing unit: a memory child of the first ancestor that has some. *)
Inductive near : list anc -> Z -> Prop :=
| near_here : forall a l n, In n (a_mem a) -> near (a :: l) n
| near_up : forall a l n, a_mem a = [] -> near l n -> near (a :: l) n.
