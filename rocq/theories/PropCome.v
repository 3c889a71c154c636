(** Property C84: threads that come and go, and the room for the structures of their chains. *)
From Verif Require Import Word Res Mem ChainModel ChainSpec ChainProps ChainRun LightModel PosixModel PosixSpec PosixEx ComeSpec ComeProofs PosixStep.
From Coq Require Import ZArith List Bool Lia.
Import ListNotations.
Open Scope Z_scope.

(** C84. The structures of the chains take 1696 bytes each of the 2 MB of the egg: in every state of every history their number and the free memory of the egg
    are bounded together ... *)
Theorem C84_room : forall e y O, sreach e y O -> 136 + 1696 * alive y + total (free_in (ymem y) (ebuf e, EGG_MEM)) <= 2097152.
Proof. intros e y O H. exact (room_used e y O (sreach_sinv _ _ _ H)). Qed.
Print Assumptions C84_room.
(** ... so at most 1236 chains of threads can exist together. *)
Theorem C84_limit : forall e y O, sreach e y O -> alive y <= 1236.
Proof. intros e y O H. exact (alive_limit e y O (sreach_sinv _ _ _ H)). Qed.
Print Assumptions C84_limit.
(** Up to 413 of them always leave room for one more, whatever the history, as long as the program has got no block from the egg (plain alignment of the
    structures, and a factor of realloc of at least 2, the default). *)
Theorem C84_few : forall e y O, sreach e y O -> (forall b, ~ holds y O 0 b) -> (forall b, In b (live (oat O 0)) -> bd b <= 1) -> 2 <= efac e ->
  ehook e CHAIN_SIZE <= 1 -> alive y <= 413 -> egg_room e y O.
Proof. exact few_room. Qed.
Print Assumptions C84_few.
(** Without room the first call of a thread is undefined behaviour: the pointer to the new chain is NULL and the assert that checks it is not compiled. *)
Theorem C84_full_stops_refuted : forall e y O c t, sreach e y O -> ytls y t = None -> ~ egg_room e y O -> needs_chain c t ->
  exists f0, (forall f, (f0 <= f)%nat -> pexec f e c y = UB) /\ forall f, pexec f e c y = OutOfFuel \/ pexec f e c y = UB.
Proof. exact stops. Qed.
Print Assumptions C84_full_stops_refuted.
(** And threads that only start and end, one after another, asking for nothing, use up the egg: in every configuration there is a history of at most 1236 of
    them after which all have ended, nothing is held, and no call of a new thread works any more. *)
Theorem C84_come_and_go_refuted : forall e, wf_env e -> exists n y O, come_go e n y O /\ Z.of_nat n <= 1236 /\ sreach e y O /\ all_over y O /\ (exists t, ytls y t = None) /\
  forall t c, ytls y t = None -> needs_chain c t -> exists f0, (forall f, (f0 <= f)%nat -> pexec f e c y = UB) /\ forall f, pexec f e c y = OutOfFuel \/ pexec f e c y = UB.
Proof. exact come_go_end. Qed.
Print Assumptions C84_come_and_go_refuted.
(** All such histories: each thread that has ended leaves its structure. *)
Theorem C84_left_behind_refuted : forall e n y O, come_go e n y O -> sreach e y O /\ all_over y O /\ Z.of_nat n <= alive y.
Proof. exact come_left. Qed.
Print Assumptions C84_left_behind_refuted.

Example C84_nontrivial : sreach e0 Y2 O2 /\ alive Y2 = 2 /\ total (free_in (ymem Y2) (ebuf e0, EGG_MEM)) = 2093616 /\
  (forall b, ~ holds Y2 O2 0 b) /\ (forall b, In b (live (oat O2 0)) -> bd b <= 1) /\ 2 <= efac e0 /\ ehook e0 CHAIN_SIZE <= 1.
Proof.
  split; [exact reach_2|]. split; [vm_compute; reflexivity|]. split; [vm_compute; reflexivity|].
  assert (L : live (oat O2 0) = [mkBlk 4196144 1680 0; mkBlk 4194448 1680 0; mkBlk 4194352 72 0]) by (vm_compute; reflexivity).
  split; [|split; [rewrite L; intros b [<-|[<-|[<-|[]]]]; discriminate|split; vm_compute; discriminate]].
  intros b (_ & H & N). rewrite L in H. apply N. destruct H as [<-|[<-|[<-|[]]]].
  - right. exists 2%nat. eexists. split; [discriminate|]. split; vm_compute; reflexivity.
  - right. exists 1%nat. eexists. split; [discriminate|]. split; vm_compute; reflexivity.
  - left. vm_compute. reflexivity.
Qed.
