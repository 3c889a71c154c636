(** C78: start-up of the library with the store buffers of x86. *)
From Verif Require Import Res InitModel InitSpec InitTsoModel InitTsoSpec InitTsoProofs.
From Coq Require Import List Bool Arith Lia.
Import ListNotations.

(** What reaches the memory reaches it once, in the order of the start-up. *)
Theorem C78_once_in_order : forall m s, mach_ok m -> treach true m s -> NoDup (all_done m) /\ exists e, all_done m = t_log s ++ e.
Proof. exact tso_prefix. Qed.
Print Assumptions C78_once_in_order.
(** A thread that has left base_init sees the configuration, the egg allocator and its source, and the default source. *)
Theorem C78_started_ready : forall m s t, mach_ok m -> treach true m s -> started (t_at s t) ->
  2 <= fst (view s t) /\ forall d, In d (basics m) -> sees s t d.
Proof. exact tso_ready. Qed.
Print Assumptions C78_started_ready.
(** It sees the source that it gets. *)
Theorem C78_source_ready : forall m s t id, mach_ok m -> treach true m s -> t_at s t = Got id -> sees s t (Source id).
Proof. exact tso_source. Qed.
Print Assumptions C78_source_ready.
(** At most one thread is between the lock and the unlock, and then the stores of all others are in memory. *)
Theorem C78_one_inside : forall m s t u, mach_ok m -> treach true m s -> inside_init (t_at s t) -> inside_init (t_at s u) -> t = u.
Proof. exact tso_one. Qed.
Print Assumptions C78_one_inside.
Theorem C78_others_drained : forall m s t, mach_ok m -> treach true m s -> inside_init (t_at s t) -> forall u, u <> t -> t_buf s u = [].
Proof. exact tso_alone. Qed.
Print Assumptions C78_others_drained.
(** When the final state is in memory, so is everything it announces. *)
Theorem C78_all_done : forall m s, mach_ok m -> treach true m s -> t_state s = 3 -> t_log s = all_done m.
Proof. exact tso_done. Qed.
Print Assumptions C78_all_done.
(** No check fails; without the round robin, or once the final state is in memory on a machine with nodes, no step is undefined. *)
Theorem C78_no_abort : forall m s a, mach_ok m -> treach true m s -> tact_ok m a -> tstep true m a s <> Abort /\ tstep true m a s <> OutOfFuel.
Proof. exact tso_no_abort. Qed.
Print Assumptions C78_no_abort.
Theorem C78_no_fault : forall m s a, mach_ok m -> treach true m s -> tact_ok m a ->
  hw m = false \/ robin m = false \/ (t_state s = 3 /\ nodes m <> 0) -> exists s', tstep true m a s = Ok s'.
Proof. exact tso_no_fault. Qed.
Print Assumptions C78_no_fault.
(** From any state, a thread that has made its first call can be brought to its source. *)
Theorem C78_progress : forall m s t, mach_ok m -> (hw m = false \/ robin m = false) -> treach true m s -> t_at s t <> Out ->
  exists l s' id, truns true m s l s' /\ t_at s' t = Got id.
Proof. exact tso_progress. Qed.
Print Assumptions C78_progress.
(** Where stores overtake each other (the code has no barrier before the state, and it is a plain variable), on every machine a thread may read
    the state "default" and go on without the egg allocator. *)
Theorem C78_overtaking_refuted : forall m, exists s, treach false m s /\ t_at s 1 = Chain /\ t_state s = 2 /\ ~ sees s 1 EggChain /\ tstep false m (TGo 1 None 0) s = UB.
Proof. exact overtaken. Qed.
Print Assumptions C78_overtaking_refuted.

(** Thread 0 has finished the start-up and has its source, with its 15 stores still waiting; thread 1 waits for the lock and sees nothing yet. *)
Definition mach4t : machine := mkMach true 4 true false.
Definition tdemo : list tact := [TBegin 0; TBegin 1; tgo 1] ++ repeat (tgo 0) 26 ++ [tgo 1].
Example C78_met : mach_ok mach4t /\ exists s, treach true mach4t s /\ t_at s 0 = Got 128 /\ t_at s 1 = Lock /\ t_lock s = Some 0 /\ t_log s = [] /\
  length (t_buf s 0) = 15 /\ sees s 0 (Source 3) /\ ~ sees s 1 (Source 3).
Proof.
  split; [cbv; lia|].
  assert (B : match tplay true mach4t tdemo t0 with Ok s => Some (t_at s 0, t_at s 1, t_lock s, t_log s, t_buf s 0, t_buf s 1) | _ => None end =
    Some (Got 128, Lock, Some 0, [], map WDo [ConfigDefaults; EggChain] ++ [WState 1] ++ map WDo [Topology; Source 128; ConfigUser; EggSource] ++ [WState 2] ++
          map WDo [Source 0; Source 1; Source 2; Source 3; OnNode] ++ [WState 3; WFree], [])) by (vm_compute; reflexivity).
  assert (E : exists s, tplay true mach4t tdemo t0 = Ok s /\ t_at s 0 = Got 128 /\ t_at s 1 = Lock /\ t_lock s = Some 0 /\ t_log s = [] /\
    length (t_buf s 0) = 15 /\ sees s 0 (Source 3) /\ ~ sees s 1 (Source 3)).
  { destruct (tplay true mach4t tdemo t0) as [s| | |]; try discriminate. exists s. injection B as B1 B2 B3 B4 B5 B6. split; [reflexivity|]. unfold sees. rewrite B1, B2, B3, B4, B5, B6.
    split; [reflexivity|]. split; [reflexivity|]. split; [reflexivity|]. split; [reflexivity|]. split; [reflexivity|]. split; [cbn; tauto|cbn; tauto]. }
  destruct E as (s & E & Q). exists s. split; [|exact Q]. apply (truns_reach _ _ t0 tdemo); [constructor|]. apply tplay_runs; [|exact E].
  intros a H. unfold tdemo in H. apply in_app_iff in H as [H|H]; [|apply in_app_iff in H as [H|[<-|[]]]].
  - cbn [In] in H. destruct H as [<-|[<-|[<-|[]]]]; [exact Logic.I|exact Logic.I|apply go_fine].
  - apply repeat_spec in H. subst a. apply go_fine.
  - apply go_fine.
Qed.
(** The same, with the stores up to the state "default" in memory: a third thread passes the first test while the lock is held. *)
Definition tdemo2 : list tact := tdemo ++ repeat (TFlush 0 0) 8 ++ [TBegin 2; tgo 2; tgo 2; tgo 2; tgo 2; tgo 2].
Example C78_met_early : exists s, treach true mach4t s /\ t_at s 2 = Got 128 /\ t_state s = 2 /\ t_lock s = Some 0 /\ length (t_buf s 0) = 7 /\ started (t_at s 2).
Proof.
  assert (B : match tplay true mach4t tdemo2 t0 with Ok s => Some (t_at s 2, t_state s, t_lock s, length (t_buf s 0)) | _ => None end = Some (Got 128, 2, Some 0, 7)) by (vm_compute; reflexivity).
  assert (E : exists s, tplay true mach4t tdemo2 t0 = Ok s /\ t_at s 2 = Got 128 /\ t_state s = 2 /\ t_lock s = Some 0 /\ length (t_buf s 0) = 7).
  { destruct (tplay true mach4t tdemo2 t0) as [s| | |]; try discriminate. exists s. injection B as B1 B2 B3 B4. split; [reflexivity|]. split; [exact B1|]. split; [exact B2|]. split; [exact B3|exact B4]. }
  destruct E as (s & E & Q1 & Q2). exists s. split; [|split; [exact Q1|]; split; [apply Q2|]; split; [apply Q2|]; split; [apply Q2|rewrite Q1; exact Logic.I]].
  apply (truns_reach _ _ t0 tdemo2); [constructor|]. apply tplay_runs; [|exact E].
  intros a H. unfold tdemo2, tdemo in H. rewrite !in_app_iff in H. destruct H as [[H|[H|H]]|[H|H]].
  - cbn [In] in H. destruct H as [<-|[<-|[<-|[]]]]; [exact Logic.I|exact Logic.I|apply go_fine].
  - apply repeat_spec in H. subst a. apply go_fine.
  - destruct H as [<-|[]]. apply go_fine.
  - apply repeat_spec in H. subst a. exact Logic.I.
  - cbn [In] in H. repeat (destruct H as [<-|H]; [first [exact Logic.I|apply go_fine]|]). contradiction.
Qed.
