(** C71: calls on light memory sources that do not overlap. *)
From Verif Require Import Res Mem LightModel LightSpec LightConcModel LightConcSpec LightSoloSpec LightSoloProofs.
From Coq Require Import ZArith List Bool Lia Arith.
Import ListNotations.
Open Scope Z_scope.

(** A call that no other thread interrupts has the result and the effect of the functions of LightModel.v, which follow the links in memory:
    same segment, same cache in the same order, same size and counter; other sources and other threads are as before. *)
Theorem C71_alone : forall g ss outs c t j a, agrees ss outs c -> (forall i, lightreach g false (ss i) (outs i)) -> cat_ c t = PIdle -> kvalid g (ss j) (outs j) c a ->
  exists r s' k c', lightstep g (op_of a) (ss j) = Ok (r, s') /\ lcruns g c (ksolo t j a k) c' /\
    agrees (put ss j s') (put outs j (lafter (outs j) (op_of a) r)) c' /\ (forall u, cat_ c' u = cat_ c u) /\
    (forall x, In x (maps c') -> In x (maps c) \/ In x (lmap s')) /\ (forall x, In x (maps c) -> ~ In x (lmap (ss j)) -> In x (maps c')) /\
    (forall x, In x (maps c') -> In x (lmap (ss j)) -> In x (lmap s')).
Proof. exact call_ok. Qed.
Print Assumptions C71_alone.

(** Every history of calls one after another is an execution of the model with several threads. *)
Theorem C71_serial : forall g S ss outs, serial g S ss outs ->
  exists c, lcreach g 1 S true c /\ agrees ss outs c /\ calm_lc c /\ forall x, In x (maps c) <-> exists j, In x (lmap (ss j)).
Proof. exact serial_ok. Qed.
Print Assumptions C71_serial.

(** The cleanup of a source unmaps the same segments, or stops the program in both; it returns with the lock taken. *)
Theorem C71_cleanup : forall g ss outs c t j, agrees ss outs c -> (forall i, lightreach g false (ss i) (outs i)) -> cat_ c t = PIdle ->
  match cleanup (loop_bound (ss j)) (ss j) with
  | Ok s' => exists c', lcruns g c (AClean t j :: repeat (AGo t 0) 2) c' /\ lmap s' = [] /\ (forall x, In x (maps c') <-> In x (maps c) /\ ~ In x (lmap (ss j))) /\
      cat_ c' t = PIdle /\ clk (srcs c' j) = Some t
  | Abort => exists c', lcruns g c [AClean t j; AGo t 0] c' /\ lcstep g (AGo t 0) c' = Abort
  | _ => False
  end.
Proof. exact clean_ok. Qed.
Print Assumptions C71_cleanup.

(** Two sources; source 0 has two segments of one size in its cache and one in use, source 1 has unmapped a large one. *)
Definition gx : lcfg := mkLcfg 8388608 67108864.
Definition hx : list (nat * lcall) :=
  [(0%nat, KReq 2097152 (Some 4194304)); (0%nat, KReq 2097152 (Some 8388608)); (1%nat, KReq 16777216 (Some 33554432)); (0%nat, KReq 4096 (Some 16384));
   (0%nat, KFree 4194304 2097152); (0%nat, KWrite 8388700 5); (1%nat, KFree 33554432 16777216); (0%nat, KFree 8388608 2097152)].
Definition stepx (w : (nat -> ls) * (nat -> list (Z * Z))) (x : nat * lcall) : (nat -> ls) * (nat -> list (Z * Z)) :=
  match lightstep gx (op_of (snd x)) (fst w (fst x)) with
  | Ok (r, s') => (put (fst w) (fst x) s', put (snd w) (fst x) (lafter (snd w (fst x)) (op_of (snd x)) r))
  | _ => w
  end.
Definition wx (l : list (nat * lcall)) := fold_left stepx l (fun _ => ls0 (fun _ => 7), fun _ => []).
Ltac new FR := apply FR; [lia|lia|vm_compute; reflexivity|intros; vm_compute; reflexivity].
Example C71_case : serial gx 2 (fst (wx hx)) (snd (wx hx)) /\ snd (wx hx) 0%nat = [(16384, 4096)] /\ lsz (fst (wx hx) 0%nat) = 4194304 /\
  lmap (fst (wx hx) 1%nat) = [] /\ lightstep gx (op_of (KReq 2097152 None)) (fst (wx hx) 0%nat) <> UB.
Proof.
  assert (ST : forall l j a r s', serial gx 2 (fst (wx l)) (snd (wx l)) -> (j < 2)%nat -> lightstep gx (op_of a) (fst (wx l) j) = Ok (r, s') ->
    lvalid gx false (fst (wx l) j) (snd (wx l) j) (op_of a) ->
    match a with KReq n (Some b) => forall i, fresh (fst (wx l) i) b n | KFree b n => In (b, n) (snd (wx l) j) | _ => True end ->
    serial gx 2 (fst (wx (l ++ [(j, a)]))) (snd (wx (l ++ [(j, a)])))).
  { intros l j a r s' H Hj E V V'. unfold wx at 1 2. rewrite fold_left_app. cbn [fold_left]. change (fold_left stepx l _) with (wx l). unfold stepx. cbn [fst snd]. rewrite E.
    cbn [fst snd]. eapply serial_s; eassumption. }
  split; [|vm_compute; repeat split; try reflexivity; discriminate].
  assert (FR : forall l b n, 0 < b -> b + n <= 2 ^ 47 -> forallb (fun i => forallb (fun x => (b + n <=? fst x) || (fst x + snd x <=? b)) (lmap (fst (wx l) i))) [0; 1]%nat = true ->
    (forall i, lmap (fst (wx l) (S (S i))) = []) -> forall i, fresh (fst (wx l) i) b n).
  { intros l b n H1 H2 H3 H4 i. split; [exact H1|]. split; [exact H2|]. intros x Hx. rewrite forallb_forall in H3. destruct i as [|[|i]].
    - specialize (H3 0%nat (or_introl eq_refl)). cbv beta in H3. rewrite forallb_forall in H3. specialize (H3 x Hx). unfold disj. cbn [fst snd]. lia.
    - specialize (H3 1%nat (or_intror (or_introl eq_refl))). cbv beta in H3. rewrite forallb_forall in H3. specialize (H3 x Hx). unfold disj. cbn [fst snd]. lia.
    - rewrite H4 in Hx. destruct Hx. }
  pose proof (serial_0 gx 2 (fun _ => 7)) as H. change (serial gx 2 (fst (wx [])) (snd (wx []))) in H.
  unfold hx.
  assert (H1 := H). eapply (ST _ 0%nat (KReq 2097152 (Some 4194304))) in H1; [|lia|cbn [op_of]; vm_compute; reflexivity|split; [lia|split; [reflexivity|new FR]]|new FR].
  eapply (ST _ 0%nat (KReq 2097152 (Some 8388608))) in H1; [|lia|cbn [op_of]; vm_compute; reflexivity|split; [lia|split; [reflexivity|new FR]]|new FR].
  eapply (ST _ 1%nat (KReq 16777216 (Some 33554432))) in H1; [|lia|cbn [op_of]; vm_compute; reflexivity|split; [lia|split; [reflexivity|new FR]]|new FR].
  eapply (ST _ 0%nat (KReq 4096 (Some 16384))) in H1; [|lia|cbn [op_of]; vm_compute; reflexivity|split; [lia|split; [reflexivity|new FR]]|new FR].
  eapply (ST _ 0%nat (KFree 4194304 2097152)) in H1; [|lia|cbn [op_of]; vm_compute; reflexivity|exists 2097152; vm_compute; tauto|vm_compute; tauto].
  eapply (ST _ 0%nat (KWrite 8388700 5)) in H1; [|lia|cbn [op_of]; vm_compute; reflexivity|exists 8388608, 2097152; split; [vm_compute; tauto|lia]|exact Logic.I].
  eapply (ST _ 1%nat (KFree 33554432 16777216)) in H1; [|lia|cbn [op_of]; vm_compute; reflexivity|exists 16777216; vm_compute; tauto|vm_compute; tauto].
  eapply (ST _ 0%nat (KFree 8388608 2097152)) in H1; [|lia|cbn [op_of]; vm_compute; reflexivity|exists 2097152; vm_compute; tauto|vm_compute; tauto].
  exact H1.
Qed.
