(** Concrete interleavings, checked by computation (for the examples beside the theorems and the counterexamples). *)
From Verif Require Import Word Res Mem ChainModel ChainSpec ChainRun RegionModel LightModel PosixModel PosixSpec ConcModel ConcSpec PosixEx.
From Coq Require Import ZArith List Bool Lia.
Import ListNotations.
Open Scope Z_scope.

Definition sizeb (d n : Z) : bool :=
  (0 <=? n) && ((d =? 0) || pow2b d) && (n + d <? 2 ^ 63 - 64) && (negb (1048576 - 16 <? asked d n) || ((asked d n + 47) mod 2097152 <? 2097152 - 16)).
Lemma sizeb_ok d n : sizeb d n = true -> size_ok d n.
Proof.
  unfold sizeb. rewrite !andb_true_iff. intros (((H1 & H2) & H3) & H4). unfold size_ok. split; [lia|]. split.
  { apply orb_true_iff in H2 as [H2|H2]; [left; lia|right; exact (pow2b_ok d H2)]. }
  split; [lia|]. unfold huge. intros K. apply orb_true_iff in H4 as [H4|H4]; lia.
Qed.
Definition osb (e : env) (y : sys) (a z : Z) : bool :=
  (4194304 <=? a) && (a mod 4096 =? 0) && (a + z <=? 2 ^ 47) && forallb (apartb (a, z)) ((eegg e, CHAIN_SIZE) :: (ebuf e, EGG_MEM) :: lmap (ysrc y)).
Lemma osb_ok e y a z : osb e y a z = true -> os_ok e y (fun _ => a) z.
Proof.
  unfold osb. rewrite !andb_true_iff. intros (((H5 & H6) & H7) & H8). intros l HL. split; [lia|]. split; [lia|]. split; [lia|]. intros r HR. rewrite forallb_forall in H8. apply apartb_ok. apply H8.
  destruct HR as [HR|[HR|HR]]; [left; exact HR|right; left; exact HR|right; right; exact (HL r HR)].
Qed.

(** The threads of the examples. *)
Definition TS : list Z := [1; 2; 3].
Definition outside (s : cst) : Prop := forall t, ~ In t TS -> cjobs s t = None.
Definition in_useb (s : cst) (p : Z) : bool := existsb (fun t => match cjobs s t with Some j => existsb (Z.eqb p) (ptrs (jk j)) | None => false end) TS.
Lemma in_useb_ok s p : outside s -> in_useb s p = false -> ~ in_use s p.
Proof.
  intros W H (t & j & Hj & Hp). assert (X : in_useb s p = true); [|congruence]. apply existsb_exists. exists t. split.
  - destruct (in_dec Z.eq_dec t TS) as [K|K]; [exact K|]. rewrite (W t K) in Hj. discriminate.
  - rewrite Hj. apply existsb_exists. exists p. split; [exact Hp|apply Z.eqb_refl].
Qed.
Definition cheld (s : cst) (O : list obs) : list (nat * blk) := filter (fun x => negb (in_useb s (bp (snd x)))) (held_list (cy s) O).
Lemma cheld_ok s O i b : outside s -> In (i, b) (cheld s O) -> cholds s O i b.
Proof. intros W H. apply filter_In in H as (H1 & H2). apply negb_true_iff in H2. split; [exact (held_list_ok _ _ _ _ H1)|exact (in_useb_ok _ _ W H2)]. Qed.

Definition startsb (e : env) (s : cst) (O : list obs) (c : PosixEx.act) : bool :=
  match c with
  | AMalloc t n a => sizeb (ehook e (one n)) (one n)
  | AFree t p => (p =? 0) || existsb (fun x => bp (snd x) =? p) (cheld s O)
  | ARealloc t p n a => (0 <? efac e) && ((p =? 0) || existsb (fun x => (bp (snd x) =? p) && (bd (snd x) <=? 1)) (cheld s O)) && sizeb (ehook e (one n)) (one n)
  | ACalloc t x z a => (0 <=? x) && (x <? 2 ^ 64) && (0 <=? z) && (z <? 2 ^ 64) && (match ytls (cy s) t with Some O => false | _ => true end) &&
      sizeb (ehook e (one ((x * z) mod 2 ^ 64))) (one ((x * z) mod 2 ^ 64))
  | AMemalign t d n a => negb (is_pow2 d) || sizeb d (one n)
  | APosix t d n a => (d mod 8 =? 0) && sizeb d (one n)
  | AExit t => true
  | AWrite x v => existsb (fun h => (bp (snd h) <=? x) && (x <? bp (snd h) + size_num (cy s) (fst h) (bp (snd h)))) (cheld s O)
  end.
Lemma startsb_ok e s O c : outside s -> startsb e s O c = true -> starts e s O (pop_of c).
Proof.
  intros W. destruct c as [t n a|t p|t p n a|t x z a|t d n a|t d n a|t|x v]; cbn [startsb pop_of starts]; rewrite ?andb_true_iff; intros H.
  - apply sizeb_ok, H.
  - apply orb_true_iff in H as [H|H]; [left; lia|]. right. apply existsb_exists in H as ((i, b) & H2 & H3). apply (cheld_ok _ _ _ _ W) in H2. cbn [snd] in H3. exists i, (bn b), (bd b). replace p with (bp b) by lia. destruct b. exact H2.
  - destruct H as ((H2 & H3) & H4). split; [lia|]. split; [|apply sizeb_ok, H4]. apply orb_true_iff in H3 as [H3|H3]; [left; lia|right].
    apply existsb_exists in H3 as ((i, b) & H3 & H5). apply (cheld_ok _ _ _ _ W) in H3. cbn [snd] in H5. apply andb_true_iff in H5 as (H5 & H6). exists i, (bn b), (bd b).
    replace p with (bp b) by lia. split; [destruct b; exact H3|lia].
  - destruct H as (((((H2 & H3) & H4) & H5) & H6) & H7). split; [lia|]. split; [lia|]. split; [|apply sizeb_ok, H7].
    destruct (ytls (cy s) t) as [[|i]|]; [discriminate| |]; discriminate.
  - intros K. rewrite K in H. cbn [negb orb] in H. apply sizeb_ok, H.
  - destruct H as (H0 & H1). split; [lia|apply sizeb_ok, H1].
  - exact Logic.I.
  - apply existsb_exists in H as ((i, b) & H1 & H2). apply (cheld_ok _ _ _ _ W) in H1. cbn [fst snd] in H2. apply andb_true_iff in H2 as (H2 & H3).
    exists i, b, (size_num (cy s) i (bp b)). split; [exact H1|]. split; [apply size_num_ok; [reflexivity|lia]|lia].
Qed.
Definition goesb (e : env) (y : sys) (t a : Z) (k : task) : bool :=
  match k with
  | KAlloc _ _ _ | KFree _ _ | KRealloc _ _ => threadb e y t
  | KAllocDo l d n _ => osb e y a (ask_size (d (one n)) (one n))
  | KReallocDo i p n => osb e y a (ask_size (ehook e n) n)
  | KExitPurge i => match chain y i with Some _ => true | None => false end
  | _ => true
  end.
Lemma goesb_ok e y O t a k : goesb e y t a k = true -> goes e y O t (fun _ => a) k.
Proof.
  destruct k; cbn [goesb goes]; intros H; try exact Logic.I; try (apply threadb_ok; exact H); try (apply osb_ok; exact H). destruct (chain y i); discriminate.
Qed.

(** Steps of the examples: a call begins, or a thread goes on ([a]: what mmap gives). *)
Inductive stp := Bg (c : PosixEx.act) | Nx (t a : Z).
Definition act_of (x : stp) : ConcModel.act := match x with Bg c => Call (pop_of c) | Nx t a => Go t (fun _ => a) end.
Definition freeb (s : cst) (c : pop) : bool := match caller c with Some t => existsb (Z.eqb t) TS && match cjobs s t with None => true | Some _ => false end | None => true end.
Definition validb (e : env) (s : cst) (O : list obs) (x : stp) : bool :=
  match x with
  | Bg c => freeb s (pop_of c) && startsb e s O c
  | Nx t a => match cjobs s t with Some j => goesb e (cy s) t a (jk j) | None => false end
  end.
Lemma validb_ok e s O x : outside s -> validb e s O x = true -> avalid e s O (act_of x).
Proof.
  intros W. destruct x as [c|t a]; cbn [validb act_of avalid].
  - rewrite andb_true_iff. intros (H1 & H2). split; [|exact (startsb_ok _ _ _ _ W H2)]. intros t HC. unfold freeb in H1. rewrite HC in H1. apply andb_true_iff in H1 as (_ & H1). destruct (cjobs s t); [discriminate|reflexivity].
  - destruct (cjobs s t) as [j|] eqn:Hj; [|discriminate]. intros H. exists j. split; [reflexivity|exact (goesb_ok _ _ _ _ _ _ H)].
Qed.
Lemma out_set s t j y : outside s -> In t TS -> outside (set_job s t j y).
Proof. intros W H t' N. unfold set_job. cbn [cjobs]. unfold zupd. destruct (Z.eqb_spec t' t) as [->|_]; [contradiction|exact (W t' N)]. Qed.
Lemma crun_outside fuel e s O x r s' : outside s -> validb e s O x = true -> crun fuel e (act_of x) s = Ok (r, s') -> outside s'.
Proof.
  intros W V E. destruct x as [c|t a]; cbn [act_of crun validb] in *.
  - apply andb_true_iff in V as (V & _). unfold freeb in V. destruct (begin e (pop_of c) (yset_tr (cy s) [])) as [[code rr|k] y']; [injection E as _ <-; exact W|]. destruct (caller (pop_of c)) as [t|]; [|discriminate].
    injection E as _ <-. apply out_set; [exact W|]. apply andb_true_iff in V as (V & _). apply existsb_exists in V as (t' & V1 & V2). apply Z.eqb_eq in V2. rewrite V2. exact V1.
  - destruct (cjobs s t) as [j|] eqn:Hj; [|discriminate]. assert (HT : In t TS) by (destruct (in_dec Z.eq_dec t TS) as [K|K]; [exact K|rewrite (W t K) in Hj; discriminate]).
    destruct (piece fuel e (fun _ => a) t (jk j) (yset_tr (cy s) [])) as [([code rr|k] & y')| | |]; cbn [rbind] in E; try discriminate; injection E as _ <-; apply out_set; assumption.
Qed.

Fixpoint runl (fuel : nat) (e : env) (s : cst) (O : list obs) (l : list stp) : option (cst * list obs) :=
  match l with
  | [] => Some (s, O)
  | x :: l => if validb e s O x then match crun fuel e (act_of x) s with Ok (_, s') => runl fuel e s' (obs_after O (ytr (cy s'))) l | _ => None end else None
  end.
Definition run (fuel : nat) (e : env) (m : mem) (l : list stp) : option (cst * list obs) :=
  match sys_init fuel e m with Ok y => runl fuel e (mkCst y (fun _ => None)) (start_obs e y) l | _ => None end.
Lemma runl_reach fuel e l : forall s O G s' O', creach e s O G -> outside s -> runl fuel e s O l = Some (s', O') -> outside s' /\ exists G', creach e s' O' G'.
Proof.
  induction l as [|x l IH]; intros s O G s' O' R W H; cbn [runl] in H; [injection H as <- <-; eauto|].
  destruct (validb e s O x) eqn:V; [|discriminate]. destruct (crun fuel e (act_of x) s) as [[r s1]| | |] eqn:E; try discriminate.
  eapply IH; [|exact (crun_outside _ _ _ _ _ _ _ W V E)|exact H]. eapply creach_step; [exact R|exact (validb_ok _ _ _ _ W V)|exact E].
Qed.
Definition cnil : cst := mkCst sys_nil (fun _ => None).
Definition end_s fuel e m l : cst := match run fuel e m l with Some (s, _) => s | None => cnil end.
Definition end_O fuel e m l : list obs := match run fuel e m l with Some (_, Q) => Q | None => [] end.
Definition runs_ok fuel e m l : bool := match run fuel e m l with Some _ => true | None => false end.
Lemma end_creach fuel e m l : wf_env e -> runs_ok fuel e m l = true -> outside (end_s fuel e m l) /\ exists G, creach e (end_s fuel e m l) (end_O fuel e m l) G.
Proof.
  intros W. unfold runs_ok, end_s, end_O. destruct (run fuel e m l) as [[s Q]|] eqn:E; [|discriminate]. intros _. unfold run in E.
  destruct (sys_init fuel e m) as [y0| | |] eqn:E0; try discriminate. eapply runl_reach; [exact (creach_init e fuel m y0 W E0)|intros t _; reflexivity|exact E].
Qed.
(** One more step: what returns, and the state. *)
Definition says fuel e a s : option (option (Z * option Z)) := match crun fuel e a s with Ok (Some (_, code, r), _) => Some (Some (code, r)) | Ok (None, _) => Some None | _ => None end.
Definition next_s fuel e a s : cst := match crun fuel e a s with Ok (_, s') => s' | _ => cnil end.
Definition next_r fuel e a s : option (pop * Z * option Z) := match crun fuel e a s with Ok (r, _) => r | _ => None end.
Definition isOk {A} (x : res A) : bool := match x with Ok _ => true | _ => false end.
Lemma next_at fuel e a s : isOk (crun fuel e a s) = true -> crun fuel e a s = Ok (next_r fuel e a s, next_s fuel e a s).
Proof. unfold next_s, next_r. destruct (crun fuel e a s) as [[r s']| | |]; try discriminate. reflexivity. Qed.

Definition quietb (s : cst) : bool := forallb (fun t => match cjobs s t with None => true | Some _ => false end) TS.
Lemma quietb_ok s : outside s -> quietb s = true -> forall t, cjobs s t = None.
Proof. intros W H t. destruct (in_dec Z.eq_dec t TS) as [K|K]; [|exact (W t K)]. unfold quietb in H. rewrite forallb_forall in H. specialize (H t K). destruct (cjobs s t); [discriminate|reflexivity]. Qed.

(** Two threads create their chains and allocate piece by piece; thread 2 then is in the middle of the free of a block of thread 1, which is in the middle of a realloc. *)
Definition ints1 : list stp :=
  [Bg (AMalloc 1 100 0); Bg (AMalloc 2 200 0); Nx 1 0; Nx 2 0; Nx 2 0; Nx 1 0; Nx 2 8388608; Nx 1 12582912;
   Bg (AMalloc 1 300 0); Nx 1 0; Nx 1 0; Nx 1 16777216; Bg (AWrite 12582970 7);
   Bg (ARealloc 1 12582960 5000 0); Bg (AFree 2 12583088); Nx 1 0; Nx 2 0; Nx 1 0; Nx 2 0].
Definition S1 : cst := end_s 200 e0 (fun _ => 0) ints1.
Definition Q1 : list obs := end_O 200 e0 (fun _ => 0) ints1.
