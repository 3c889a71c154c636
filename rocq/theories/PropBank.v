(** C77: high bandwidth memory. *)
From Verif Require Import Word Res NodeModel BankModel BankSpec BankProofs.
From Coq Require Import ZArith String List Bool Lia.
Import ListNotations.
Open Scope Z_scope.

(** C77. With any number of threads and any interleaving, the search answers the index of a high bandwidth bank or -1. *)
Theorem C77_answers : forall ns s t v, numbered ns -> breach ns s -> answers ns s t v -> v = -1 \/ has_bank ns v.
Proof. exact bank_answers. Qed.
Print Assumptions C77_answers.
(** C77. A search that begins when nobody is in the function and runs alone ends with a right answer, whatever happened before. *)
Theorem C77_alone : forall ns s t, numbered ns -> breach ns s -> nobody s ->
  exists n s' v, bplay ns (repeat t n) s = s' /\ b_at s' t = BOut (Some v) /\ right_answer ns v /\ b_res s' = v /\ nobody s'.
Proof. exact bank_alone. Qed.
Print Assumptions C77_alone.
(** C77. After a moment at which nobody is in the function and the search was done, every answer in every interleaving is right. *)
Theorem C77_settled : forall ns s l t v, numbered ns -> breach ns s -> nobody s -> b_res s <> -2 -> answers ns (bplay ns l s) t v -> right_answer ns v.
Proof. exact bank_settled. Qed.
Print Assumptions C77_settled.
(** C77. sctk_hbw_malloc then uses the chain of that bank, or of node 0 if there is none; with hwloc 1 always of node 0. *)
Theorem C77_chain : forall h ns v, has_nodes h = true -> numbered ns -> (0 < length ns <= 128)%nat -> v = -1 \/ has_bank ns v ->
  hbw_chain h (Z.of_nat (length ns)) true v = Ok (Some (if v =? -1 then 0 else v)) /\ hbw_chain h (Z.of_nat (length ns)) false v = Ok (Some 0).
Proof. exact hbw_right. Qed.
Print Assumptions C77_chain.

(** C77 is false with threads: on every machine with a high bandwidth bank, a call during the first search answers that there is none. *)
Theorem C77_race_refuted : forall ns w, numbered ns -> has_bank ns w -> exists s, breach ns s /\ answers ns s 1 (-1) /\ ~ right_answer ns (-1).
Proof. exact bank_race. Qed.
Print Assumptions C77_race_refuted.
(** Also a call that begins after another one has ended with the right answer. *)
Theorem C77_late_refuted : forall ns w, numbered ns -> has_bank ns w ->
  exists s s2 v l, breach ns s /\ answers ns s 0 v /\ has_bank ns v /\ s2 = bplay ns l (bgo ns 0 s) /\ b_at (bgo ns 0 s) 2 = BOut None /\ answers ns s2 2 (-1).
Proof. exact bank_late. Qed.
Print Assumptions C77_late_refuted.

(** C77, node of a processing unit: the answer is the number of the object that has the memory; it is a node close to the unit exactly when one of
    the nodes of this object has the same number. *)
Theorem C77_cpu_node : forall l1 a l2, Forall (fun x => a_mem x = []) l1 -> a_mem a <> [] ->
  from_cpu true (Some (l1 ++ a :: l2)) = Ok (a_idx a) /\ (near (l1 ++ a :: l2) (a_idx a) <-> In (a_idx a) (a_mem a)).
Proof. exact cpu_node. Qed.
Print Assumptions C77_cpu_node.
(** False otherwise: another node is close, the one answered is not; and NULL is read for an unknown unit or without memory. *)
Theorem C77_cpu_far_refuted : forall l i, from_cpu true (Some l) = Ok i ->
  (exists n, near l n) /\ ((forall a, In a l -> a_mem a <> [] -> ~ In (a_idx a) (a_mem a)) -> ~ near l i).
Proof. exact cpu_far. Qed.
Print Assumptions C77_cpu_far_refuted.
Theorem C77_cpu_null_refuted : forall pu, (pu = None \/ exists l, pu = Some l /\ Forall (fun x => a_mem x = []) l) -> from_cpu true pu = UB.
Proof. exact cpu_none. Qed.
Print Assumptions C77_cpu_null_refuted.

(** Two banks of ordinary memory and two of high bandwidth memory. *)
Definition machine : list bank := [mkBank 0 None; mkBank 1 (Some "MCDRAM"%string); mkBank 2 None; mkBank 3 (Some "MCDRAM"%string)].
Lemma machine_numbered : numbered machine.
Proof. intros [|[|[|[|i]]]] b E; cbn in E; try (injection E as <-; reflexivity). destruct i; discriminate. Qed.
Example C77_nontrivial : numbered machine /\ has_bank machine 3 /\ breach machine (bplay machine (repeat 0%nat 9) b0) /\
  b_at (bplay machine (repeat 0%nat 9) b0) 0 = BOut (Some 3) /\ nobody (bplay machine (repeat 0%nat 9) b0) /\ b_res (bplay machine (repeat 0%nat 9) b0) = 3 /\
  answers machine (bplay machine [1; 1]%nat (bplay machine (repeat 0%nat 9) b0)) 1 3.
Proof.
  split; [exact machine_numbered|]. split; [exists (mkBank 3 (Some "MCDRAM"%string)); split; [cbn; tauto|split; reflexivity]|].
  split; [apply breach_play; constructor|]. split; [reflexivity|]. split; [|split; [reflexivity|split; reflexivity]].
  intros [|t]; cbn; eexists; reflexivity.
Qed.
(** A machine with two clusters of two nodes each (0, 1 and 2, 3): a unit of the second cluster gets node 1, in the first one. *)
Example C77_cpu_nontrivial : let l := [mkAnc 5 []; mkAnc 1 [2; 3]; mkAnc 0 []] in from_cpu true (Some l) = Ok 1 /\ near l 2 /\ ~ near l 1 /\
  from_cpu true (Some [mkAnc 5 []; mkAnc 1 [1]; mkAnc 0 []]) = Ok 1.
Proof.
  cbv zeta. split; [reflexivity|]. split; [apply near_up; [reflexivity|]; apply near_here; left; reflexivity|]. split; [|reflexivity].
  intros H. inversion H as [? ? ? I|? ? ? ? H1]; subst; [destruct I|]. inversion H1 as [? ? ? I|? ? ? E H2]; subst; [|discriminate].
  cbn in I. destruct I as [I|[I|I]]; [discriminate|discriminate|destruct I].
Qed.
