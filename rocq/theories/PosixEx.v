(** Concrete histories of the whole allocator, checked by computation (for the examples beside the theorems and the counterexamples). *)
From Verif Require Import Word Res Mem ChainModel ChainSpec ChainRun LightModel PosixModel PosixSpec.
From Coq Require Import ZArith List Bool Lia.
Import ListNotations.
Open Scope Z_scope.

Definition apartb (x y : Z * Z) : bool := (fst x + snd x <=? fst y) || (fst y + snd y <=? fst x).
Lemma apartb_ok x y : apartb x y = true -> apart x y.
Proof. unfold apartb, apart. lia. Qed.
Definition roomb (e : env) (y : sys) : bool := existsb (fun f => room (ehook e CHAIN_SIZE) CHAIN_SIZE <=? snd f) (free_in (ymem y) (ebuf e, EGG_MEM)).
Lemma roomb_ok e y O : roomb e y = true -> egg_room e y O.
Proof. unfold roomb, egg_room. intros H. apply existsb_exists in H as ((w, c) & H1 & H2). exists w, c. split; [exact H1|]. cbn [snd] in H2. apply Z.leb_le. exact H2. Qed.
Definition threadb (e : env) (y : sys) (t : Z) : bool := match ytls y t with None => roomb e y | Some _ => true end.
Lemma threadb_ok e y O t : threadb e y t = true -> thread_ok e y O t.
Proof. unfold threadb, thread_ok. intros H E. rewrite E in H. exact (roomb_ok e y O H). Qed.

(** Alignments of the examples: none or a power of two up to 2^20. *)
Definition pow2b (d : Z) : bool := existsb (fun k => d =? 2 ^ Z.of_nat k) (seq 0 21).
Lemma pow2b_ok d : pow2b d = true -> exists k, 0 <= k /\ d = 2 ^ k.
Proof. intros H. apply existsb_exists in H as (k & _ & H). apply Z.eqb_eq in H. exists (Z.of_nat k). split; [lia|exact H]. Qed.
Definition askb (e : env) (y : sys) (d n a : Z) : bool :=
  (0 <=? n) && ((d =? 0) || pow2b d) && (n + d <? 2 ^ 63 - 64) &&
  (negb (1048576 - 16 <? asked d n) || ((asked d n + 47) mod 2097152 <? 2097152 - 16)) &&
  (4194304 <=? a) && (a mod 4096 =? 0) && (a + ask_size d n <=? 2 ^ 47) &&
  forallb (apartb (a, ask_size d n)) ((eegg e, CHAIN_SIZE) :: (ebuf e, EGG_MEM) :: lmap (ysrc y)).
Lemma askb_ok e y d n a : askb e y d n a = true -> ask_ok e y d n (fun _ => a).
Proof.
  unfold askb. rewrite !andb_true_iff. intros (((((((H1 & H2) & H3) & H4) & H5) & H6) & H7) & H8). unfold ask_ok. split; [lia|]. split.
  { apply orb_true_iff in H2 as [H2|H2]; [left; lia|right; exact (pow2b_ok d H2)]. }
  split; [lia|]. split; [unfold huge; intros K; apply orb_true_iff in H4 as [H4|H4]; lia|].
  intros l HL. split; [lia|]. split; [lia|]. split; [lia|]. intros r HR. rewrite forallb_forall in H8. apply apartb_ok. apply H8.
  destruct HR as [HR|[HR|HR]]; [left; exact HR|right; left; exact HR|right; right; exact (HL r HR)].
Qed.

Definition reservedb (y : sys) (p : Z) : bool :=
  (p =? ylight y) || existsb (fun i => match chain y i with Some k => cpool (kg k) =? p | None => false end) (seq 1 (length (ych y))).
Definition live_at (y : sys) (O : list obs) (i : nat) : list blk :=
  match chain y i with Some _ => filter (fun b => negb (reservedb y (bp b))) (live (oat O i)) | None => [] end.
Lemma chain_in y i k : chain y i = Some k -> (i < length (ych y))%nat.
Proof. unfold chain. intros H. destruct (Nat.lt_ge_cases i (length (ych y))) as [K|K]; [exact K|]. rewrite nth_overflow in H by exact K. discriminate. Qed.
Lemma live_at_ok y O i b : In b (live_at y O i) -> holds y O i b.
Proof.
  unfold live_at. destruct (chain y i) as [k|] eqn:E; [|intros []]. intros H. apply filter_In in H as (H1 & H2). split; [eauto|]. split; [exact H1|].
  apply negb_true_iff in H2. unfold reservedb in H2. apply orb_false_iff in H2 as (H2 & H3). intros [K|(j & kj & N & Hj & K)]; [lia|].
  assert (X : existsb (fun i => match chain y i with Some k => cpool (kg k) =? bp b | None => false end) (seq 1 (length (ych y))) = true); [|congruence].
  apply existsb_exists. exists j. split; [apply in_seq; pose proof (chain_in _ _ _ Hj); lia|]. rewrite Hj. lia.
Qed.
Definition held_list (y : sys) (O : list obs) : list (nat * blk) := flat_map (fun i => map (pair i) (live_at y O i)) (seq 0 (length (ych y))).
Lemma held_list_ok y O i b : In (i, b) (held_list y O) -> holds y O i b.
Proof. intros H. apply in_flat_map in H as (j & _ & H). apply in_map_iff in H as (b' & E & H). injection E as <- <-. exact (live_at_ok _ _ _ _ H). Qed.

Definition foreignb (y : sys) (O : list obs) (p : Z) : bool :=
  (0 <=? p) && (p <? 2 ^ 48) && forallb (fun i => forallb (fun r => negb ((fst r <=? p) && (p <? fst r + snd r))) (segs (oat O i))) (seq 0 (length (ych y))).
Lemma foreignb_ok y O p : foreignb y O p = true -> foreign y O p.
Proof.
  unfold foreignb. rewrite !andb_true_iff. intros ((H1 & H2) & H3). split; [lia|]. intros i k b z Hk HI K. rewrite forallb_forall in H3.
  assert (HS : In i (seq 0 (length (ych y)))) by (apply in_seq; pose proof (chain_in _ _ _ Hk); lia). specialize (H3 i HS). rewrite forallb_forall in H3. specialize (H3 _ HI). cbn [fst snd] in H3. lia.
Qed.
Definition size_num (y : sys) (i : nat) (p : Z) : Z := match chain y i with Some k => size_at (set_mem (kst k) (ymem y)) p | None => -1 end.
Lemma size_num_ok y i p u : size_num y i p = u -> 0 <= u -> size_of y i p u.
Proof. unfold size_num, size_of. destruct (chain y i) as [k|]; [|lia]. intros H K. exists k. split; [reflexivity|exact (usable_at _ _ _ H K)]. Qed.

(** Calls of the examples: mmap always gives the same address. *)
Inductive act :=
| AMalloc (t n a : Z) | AFree (t p : Z) | ARealloc (t p n a : Z) | ACalloc (t x y a : Z) | AMemalign (t d n a : Z) | APosix (t d n a : Z) | AExit (t : Z) | AWrite (x v : Z).
Definition pop_of (a : act) : pop :=
  match a with
  | AMalloc t n a => PMalloc t n (fun _ => a)
  | AFree t p => PFree t p
  | ARealloc t p n a => PRealloc t p n (fun _ => a)
  | ACalloc t x y a => PCalloc t x y (fun _ => a)
  | AMemalign t d n a => PMemalign t d n (fun _ => a)
  | APosix t d n a => PPosixMemalign t d n (fun _ => a)
  | AExit t => PExit t
  | AWrite x v => PWrite x v
  end.
Definition pvalidb (e : env) (y : sys) (O : list obs) (c : act) : bool :=
  match c with
  | AMalloc t n a => threadb e y t && askb e y (ehook e (one n)) (one n) a
  | AFree t p => threadb e y t && ((p =? 0) || existsb (fun x => bp (snd x) =? p) (held_list y O) || (negb (estrict e) && foreignb y O p))
  | ARealloc t p n a => threadb e y t && (0 <? efac e) && ((p =? 0) || existsb (fun x => (bp (snd x) =? p) && (bd (snd x) <=? 1)) (held_list y O)) && askb e y (ehook e (one n)) (one n) a
  | ACalloc t x z a => threadb e y t && (0 <=? x) && (x <? 2 ^ 64) && (0 <=? z) && (z <? 2 ^ 64) && (match ytls y t with Some O => false | _ => true end) &&
      askb e y (ehook e (one ((x * z) mod 2 ^ 64))) (one ((x * z) mod 2 ^ 64)) a
  | AMemalign t d n a => negb (is_pow2 d) || (threadb e y t && askb e y d (one n) a)
  | APosix t d n a => (d mod 8 =? 0) && threadb e y t && askb e y d (one n) a
  | AExit t => true
  | AWrite x v => existsb (fun h => (bp (snd h) <=? x) && (x <? bp (snd h) + size_num y (fst h) (bp (snd h)))) (held_list y O)
  end.
Lemma pvalidb_ok e y O c : pvalidb e y O c = true -> pvalid e y O (pop_of c).
Proof.
  destruct c as [t n a|t p|t p n a|t x z a|t d n a|t d n a|t|x v]; cbn [pvalidb pop_of pvalid]; rewrite ?andb_true_iff; intros H.
  - split; [apply threadb_ok, H|apply askb_ok, H].
  - destruct H as (H1 & H2). split; [apply threadb_ok, H1|]. apply orb_true_iff in H2 as [H2|H2]; [apply orb_true_iff in H2 as [H2|H2]|].
    + left. lia.
    + right. left. apply existsb_exists in H2 as ((i, b) & H2 & H3). apply held_list_ok in H2. cbn [snd] in H3. exists i, (bn b), (bd b). replace p with (bp b) by lia. destruct b. exact H2.
    + right. right. apply andb_true_iff in H2 as (H2 & H3). split; [destruct (estrict e); [discriminate|reflexivity]|apply foreignb_ok, H3].
  - destruct H as (((H1 & H2) & H3) & H4). split; [apply threadb_ok, H1|]. split; [lia|]. split; [|apply askb_ok, H4]. apply orb_true_iff in H3 as [H3|H3]; [left; lia|right].
    apply existsb_exists in H3 as ((i, b) & H3 & H5). apply held_list_ok in H3. cbn [snd] in H5. apply andb_true_iff in H5 as (H5 & H6). exists i, (bn b), (bd b).
    replace p with (bp b) by lia. split; [destruct b; exact H3|lia].
  - destruct H as ((((((H1 & H2) & H3) & H4) & H5) & H6) & H7). split; [apply threadb_ok, H1|]. split; [lia|]. split; [lia|]. split; [|apply askb_ok, H7].
    destruct (ytls y t) as [[|i]|]; [discriminate| |]; discriminate.
  - intros K. rewrite K in H. cbn [negb orb] in H. apply andb_true_iff in H as (H1 & H2). split; [apply threadb_ok, H1|apply askb_ok, H2].
  - destruct H as ((H0 & H1) & H2). split; [lia|]. split; [apply threadb_ok, H1|apply askb_ok, H2].
  - exact Logic.I.
  - apply existsb_exists in H as ((i, b) & H1 & H2). apply held_list_ok in H1. cbn [fst snd] in H2. apply andb_true_iff in H2 as (H2 & H3).
    exists i, b, (size_num y i (bp b)). split; [exact H1|]. split; [apply size_num_ok; [reflexivity|lia]|lia].
Qed.

Fixpoint prun_from (fuel : nat) (e : env) (y : sys) (O : list obs) (l : list act) : option (sys * list obs) :=
  match l with
  | [] => Some (y, O)
  | c :: l => if pvalidb e y O c then match pexec fuel e (pop_of c) y with Ok (_, y') => prun_from fuel e y' (obs_after O (ytr y')) l | _ => None end else None
  end.
Definition prun (fuel : nat) (e : env) (m : mem) (l : list act) : option (sys * list obs) :=
  match sys_init fuel e m with Ok y => prun_from fuel e y (start_obs e y) l | _ => None end.
Lemma prun_from_reach fuel e l : forall y O y' O', sreach e y O -> prun_from fuel e y O l = Some (y', O') -> sreach e y' O'.
Proof.
  induction l as [|c l IH]; intros y O y' O' R H; cbn [prun_from] in H; [injection H as <- <-; exact R|].
  destruct (pvalidb e y O c) eqn:V; [|discriminate]. destruct (pexec fuel e (pop_of c) y) as [[r y1]| | |] eqn:E; try discriminate.
  eapply IH; [|exact H]. eapply sreach_step; [exact R|apply pvalidb_ok; exact V|exact E].
Qed.
Definition sys_nil : sys := mkSys (fun _ => 0) [] (fun _ => None) (fun _ => None) (ls0 (fun _ => 0)) 0 [].
Definition fin_y fuel e m l : sys := match prun fuel e m l with Some (y, _) => y | None => sys_nil end.
Definition fin_O fuel e m l : list obs := match prun fuel e m l with Some (_, Q) => Q | None => [] end.
Definition pruns fuel e m l : bool := match prun fuel e m l with Some _ => true | None => false end.
Lemma fin_sreach fuel e m l : wf_env e -> pruns fuel e m l = true -> sreach e (fin_y fuel e m l) (fin_O fuel e m l).
Proof.
  intros W. unfold pruns, fin_y, fin_O. destruct (prun fuel e m l) as [[y Q]|] eqn:E; [|discriminate]. intros _. unfold prun in E.
  destruct (sys_init fuel e m) as [y0| | |] eqn:E0; try discriminate. eapply prun_from_reach; [exact (sreach_init e fuel m y0 W E0)|exact E].
Qed.
(** The answer to one more call and the state after it. *)
Definition panswer fuel e c y : option (Z * option Z) := match pexec fuel e c y with Ok (er, rp, _) => Some (er, rp) | _ => None end.
Definition pafter fuel e c y : sys := match pexec fuel e c y with Ok (_, _, y') => y' | _ => sys_nil end.
Lemma panswer_at fuel e c y er rp : panswer fuel e c y = Some (er, rp) -> pexec fuel e c y = Ok (er, rp, pafter fuel e c y).
Proof. unfold panswer, pafter. destruct (pexec fuel e c y) as [[[er' rp'] y']| | |]; try discriminate. intros H. injection H as -> ->. reflexivity. Qed.

(** ** The environment of the examples *)
Definition e0 : env := mkEnv 65536 4194304 false 2 52428800 (mkLcfg 8388608 536870912) (fun _ => 0).
Lemma e0_wf : wf_env e0.
Proof.
  unfold wf_env, e0. cbn [eegg ebuf ehook]. unfold CHAIN_SIZE, EGG_MEM, apart. cbn [fst snd]. change (2 ^ 47) with 140737488355328.
  split; [lia|]. split; [lia|]. split; [lia|]. split; [lia|]. split; [reflexivity|]. split; [left; lia|]. intros n. left. reflexivity.
Qed.
(** Two threads with blocks, one of them freed by the other thread, bytes written. *)
Definition hist2 : list act :=
  [AMalloc 1 100 8388608; AMalloc 2 200 12582912; AMalloc 1 300 16777216; AWrite 8388700 7; AWrite 12583000 9; AMalloc 2 50 16777216; AFree 1 12582960].
Definition Y2 : sys := fin_y 200 e0 (fun _ => 0) hist2.
Definition O2 : list obs := fin_O 200 e0 (fun _ => 0) hist2.
Lemma reach_2 : sreach e0 Y2 O2.
Proof. apply fin_sreach; [exact e0_wf|vm_compute; reflexivity]. Qed.
(** Thread 1 exits while it has a block; thread 2 is alive. *)
Definition hist3 : list act := [AMalloc 1 100 8388608; AMalloc 2 50 12582912; AExit 1].
Definition Y3 : sys := fin_y 200 e0 (fun _ => 0) hist3.
Definition O3 : list obs := fin_O 200 e0 (fun _ => 0) hist3.
Lemma reach_3 : sreach e0 Y3 O3.
Proof. apply fin_sreach; [exact e0_wf|vm_compute; reflexivity]. Qed.
(** A thread that calls free(NULL) and exits. *)
Definition hist4 : list act := [AFree 1 0; AExit 1].
Definition Y4 : sys := fin_y 200 e0 (fun _ => 0) hist4.
Definition O4 : list obs := fin_O 200 e0 (fun _ => 0) hist4.
Lemma reach_4 : sreach e0 Y4 O4.
Proof. apply fin_sreach; [exact e0_wf|vm_compute; reflexivity]. Qed.
(** Facts about a chain of a state, by computation. *)
Definition flags (y : sys) (i : nat) : option (bool * bool) := match chain y i with Some k => Some (ksh k, kdes k) | None => None end.
Lemma flags_at y i a b : flags y i = Some (a, b) -> exists k, chain y i = Some k /\ ksh k = a /\ kdes k = b.
Proof. unfold flags. destruct (chain y i) as [k|]; [|discriminate]. intros H. injection H as <- <-. eauto. Qed.
