(** Concrete histories of the allocator whose egg has a source, checked by computation. *)
From Verif Require Import Word Res Mem ChainModel ChainSpec LightModel PosixModel PosixSpec PosixEx EggModel EggSpec.
From Coq Require Import ZArith List Bool Lia.
Import ListNotations.
Open Scope Z_scope.

Inductive hact := HStart (t a : Z) | HUse (t : Z) | HCall (c : act).
Definition hpop (c : hact) : option pop := match c with HStart _ _ => None | HUse t => Some (PUse t 0) | HCall c => Some (pop_of c) end.
Definition tlsb (y : sys) (c : pop) : bool := match by_thread c with Some t => match ytls y t with Some _ => true | None => false end | None => true end.
Definition hvalidb (e : env) (y : sys) (O : list obs) (c : hact) : bool :=
  match c with
  | HStart t a => match ytls y t with None => askb e y (ehook e CHAIN_SIZE) CHAIN_SIZE a | Some _ => false end
  | HUse t => tlsb y (PUse t 0) && match chain y 0 with Some _ => true | None => false end
  | HCall c => tlsb y (pop_of c) && pvalidb e y O c
  end.
Definition hexec (fuel : nat) (e : env) (c : hact) (y : sys) : option sys :=
  match c with
  | HStart t a => match h_start fuel e (fun _ => a) t y with Ok y => Some y | _ => None end
  | HUse t => match pexec fuel e (PUse t 0) y with Ok (_, y) => Some y | _ => None end
  | HCall c => match pexec fuel e (pop_of c) y with Ok (_, y) => Some y | _ => None end
  end.
Fixpoint hrun_from (fuel : nat) (e : env) (y : sys) (O : list obs) (l : list hact) : option (sys * list obs) :=
  match l with
  | [] => Some (y, O)
  | c :: l => if hvalidb e y O c then match hexec fuel e c y with Some y' => hrun_from fuel e y' (obs_after O (ytr y')) l | None => None end else None
  end.
Definition hrun (fuel : nat) (e : env) (pre : list Z) (m : mem) (l : list hact) : option (sys * list obs) :=
  match sys_init fuel e m, h_init fuel e pre m with Ok y0, Ok y => hrun_from fuel e y (obs_after (start_obs e y0) (ytr y)) l | _, _ => None end.
Lemma tlsb_ok y c : tlsb y c = true -> forall t, by_thread c = Some t -> ytls y t <> None.
Proof. unfold tlsb. intros H t E. rewrite E in H. destruct (ytls y t); [discriminate|discriminate]. Qed.
Lemma hrun_from_reach fuel e l : forall y O y' O', hreach e y O -> hrun_from fuel e y O l = Some (y', O') -> hreach e y' O'.
Proof.
  induction l as [|c l IH]; intros y O y' O' R H; cbn [hrun_from] in H; [injection H as <- <-; exact R|].
  destruct (hvalidb e y O c) eqn:V; [|discriminate]. destruct (hexec fuel e c y) as [y1|] eqn:E; [|discriminate]. refine (IH y1 _ y' O' _ H).
  destruct c as [t a|t|c]; cbn [hvalidb hexec] in V, E.
  - destruct (ytls y t) eqn:T; [discriminate|]. destruct (h_start fuel e (fun _ => a) t y) as [y2| | |] eqn:E2; try discriminate. injection E as <-.
    exact (hreach_start e y O fuel t (fun _ => a) y2 R T (askb_ok _ _ _ _ _ V) E2).
  - apply andb_true_iff in V as (V1 & V2). destruct (chain y 0) as [k|] eqn:K; [|discriminate].
    destruct (pexec fuel e (PUse t 0) y) as [[r y2]| | |] eqn:E2; try discriminate. injection E as <-.
    refine (hreach_step e y O fuel (PUse t 0) r y2 R (tlsb_ok _ _ V1) _ E2). exists k. auto.
  - apply andb_true_iff in V as (V1 & V2). destruct (pexec fuel e (pop_of c) y) as [[r y2]| | |] eqn:E2; try discriminate. injection E as <-.
    exact (hreach_step e y O fuel (pop_of c) r y2 R (tlsb_ok _ _ V1) (pvalidb_ok _ _ _ _ V2) E2).
Qed.
Definition hfin_y fuel e pre m l : sys := match hrun fuel e pre m l with Some (y, _) => y | None => sys_nil end.
Definition hfin_O fuel e pre m l : list obs := match hrun fuel e pre m l with Some (_, Q) => Q | None => [] end.
Definition hruns fuel e pre m l : bool := match hrun fuel e pre m l with Some _ => true | None => false end.
Lemma fin_hreach fuel e pre m l : wf_env e -> hruns fuel e pre m l = true -> hreach e (hfin_y fuel e pre m l) (hfin_O fuel e pre m l).
Proof.
  intros W. unfold hruns, hfin_y, hfin_O. destruct (hrun fuel e pre m l) as [[y Q]|] eqn:E; [|discriminate]. intros _. unfold hrun in E.
  destruct (sys_init fuel e m) as [y0| | |] eqn:E0; try discriminate. destruct (h_init fuel e pre m) as [y1| | |] eqn:E1; try discriminate.
  eapply hrun_from_reach; [exact (hreach_init e fuel pre m y0 y1 W E0 E1)|exact E].
Qed.

(** The default settings, and the same with a source that keeps nothing (SCTK keep_mem and keep_max at 0). *)
Definition e7 : env := mkEnv 65536 4194304 false 2 52428800 (mkLcfg 0 0) (fun _ => 0).
Lemma e7_wf : wf_env e7.
Proof.
  unfold wf_env, e7. cbn [eegg ebuf ehook]. unfold CHAIN_SIZE, EGG_MEM, ChainSpec.apart. cbn [fst snd]. change (2 ^ 47) with 140737488355328.
  split; [lia|]. split; [lia|]. split; [lia|]. split; [lia|]. split; [reflexivity|]. split; [left; lia|]. intros n. left. reflexivity.
Qed.
(** Thread 9 uses the egg and fills its static buffer; thread 1 starts, its structure is in a segment of the source; it takes a block and exits. *)
Definition hist7 : list hact :=
  [HStart 9 8388608; HUse 9; HCall (AMalloc 9 1000000 8388608); HCall (AMalloc 9 1000000 8388608); HCall (AMalloc 9 90000 8388608); HCall (AMalloc 9 5000 8388608);
   HStart 1 8388608; HCall (AMalloc 1 100 12582912); HCall (AExit 1)].
Definition H7 (e : env) : sys := hfin_y 200 e [] (fun _ => 0) hist7.
Definition Q7 (e : env) : list obs := hfin_O 200 e [] (fun _ => 0) hist7.
Lemma hreach_7 : hreach e7 (H7 e7) (Q7 e7).
Proof. apply fin_hreach; [exact e7_wf|vm_compute; reflexivity]. Qed.
Lemma hreach_7d : hreach e0 (H7 e0) (Q7 e0).
Proof. apply fin_hreach; [exact e0_wf|vm_compute; reflexivity]. Qed.
(** A block of 1500000 bytes taken at start-up; then a thread starts and uses the egg. *)
Definition hist8 : list hact := [HStart 1 8388608; HUse 1].
Definition H8 : sys := hfin_y 200 e0 [1500000] (fun _ => 0) hist8.
Definition Q8 : list obs := hfin_O 200 e0 [1500000] (fun _ => 0) hist8.
Lemma hreach_8 : hreach e0 H8 Q8.
Proof. apply fin_hreach; [exact e0_wf|vm_compute; reflexivity]. Qed.
Definition pool_at (y : sys) (i : nat) : option Z := match chain y i with Some k => Some (cpool (kg k)) | None => None end.
