(** Consequences for all executions, progress, cleanup, and executions that reach the bound: proofs. *)
From Verif Require Import Word Res LightModel LightConcModel LightConcSpec LightConcProofs LightConcOwn LightConcCount.
From Coq Require Import ZArith List Bool Lia.
Import ListNotations.
Open Scope Z_scope.

Definition wfg (g : lcfg) : Prop := 0 <= keep_max g /\ 0 <= keep_mem g.
Lemma lc_inv g N S home s : wfg g -> lcreach g N S home s -> KI N s /\ OI s /\ ZI g N s /\ TI N S s.
Proof.
  intros [A B] R. induction R as [|s a s' R (K & O & Z & T) C H].
  - split; [apply KI_0|]. split; [apply OI_0|]. split; [now apply ZI_0|apply TI_0].
  - split; [exact (KI_step _ _ _ _ _ _ _ K C H)|]. split; [exact (OI_step _ _ _ _ _ _ _ K O C H)|].
    split; [exact (ZI_step _ _ _ _ _ _ _ A K O Z C H)|exact (TI_step _ _ _ _ _ _ _ K T C H)].
Qed.
Lemma lc_home g N S s : wfg g -> lcreach g N S true s -> HI N s.
Proof.
  intros W R. induction R as [|s a s' R IH C H]; [apply HI_0|].
  destruct (lc_inv _ _ _ _ _ W R) as (K & O & _). exact (HI_step _ _ _ _ _ _ K O IH C H).
Qed.

Lemma no_fault g N S home s a : wfg g -> lcreach g N S home s -> lcok N S home s a -> exists s', lcstep g a s = Ok s'.
Proof. intros W R C. destruct (lc_inv _ _ _ _ _ W R) as (K & O & _). exact (step_ok g N S home s a K O C). Qed.
Lemma one_owner g N S home s x : wfg g -> lcreach g N S home s -> In x (maps s) -> exists w, has s w x /\ forall w', has s w' x -> w' = w.
Proof.
  intros W R I. destruct (lc_inv _ _ _ _ _ W R) as (_ & O & _). destruct (oi_all _ O x I) as [w H]. exists w. split; [exact H|].
  intros w' H'. exact (oi_one _ O w' w x H' H).
Qed.
Lemma disjoint_owners g N S home s w w' x y : wfg g -> lcreach g N S home s -> has s w x -> has s w' y -> x <> y \/ w <> w' -> In x (maps s) /\ 0 < snd x /\ apart x y.
Proof.
  intros W R H H' D. destruct (lc_inv _ _ _ _ _ W R) as (_ & O & _). pose proof (oi_in _ O w x H) as I. pose proof (oi_in _ O w' y H') as J.
  split; [exact I|]. split; [exact (oi_pos _ O x I)|]. apply (oi_apart _ O x y I J). intros ->. destruct D as [D|D]; [congruence|]. apply D. exact (oi_one _ O w w' y H H').
Qed.
Lemma no_twice g N S home s : wfg g -> lcreach g N S home s -> NoDup (map fst (held s)) /\ (forall j, NoDup (cq (srcs s j))) /\ NoDup (maps s).
Proof. intros W R. destruct (lc_inv _ _ _ _ _ W R) as (_ & O & _). split; [apply (oi_held _ O)|]. split; [apply (oi_cache _ O)|apply (oi_maps _ O)]. Qed.
Lemma one_locked g N S home s j t u : wfg g -> lcreach g N S home s -> locked_in j (cat_ s t) -> locked_in j (cat_ s u) -> t = u.
Proof. intros W R A B. destruct (lc_inv _ _ _ _ _ W R) as (K & _). apply (ki_lock _ _ K) in A. apply (ki_lock _ _ K) in B. congruence. Qed.

Lemma late_locked j p : late j p <> 0 -> locked_in j p.
Proof. destruct p as [|i n|i n|i x|i x|i n r|i n|i x|i x|i x|i x|i x|i|i x|i|i|i]; cbn; try congruence; destruct (Nat.eqb_spec i j); congruence. Qed.
Lemma size_exact g N S home s j : wfg g -> lcreach g N S home s -> clk (srcs s j) = None -> csz (srcs s j) = bytes (cq (srcs s j)).
Proof.
  intros W R F. destruct (lc_inv _ _ _ _ _ W R) as (K & O & Z & _). rewrite (zi_size _ _ _ Z j), total_0; [lia|]. intros t _.
  destruct (Z.eq_dec (late j (cat_ s t)) 0) as [E|E]; [exact E|]. apply late_locked, (ki_lock _ _ K) in E. congruence.
Qed.
Lemma late_coming j p : (forall x, hand p = Some x -> 0 < snd x) -> - coming j p <= late j p.
Proof.
  intros H. destruct p as [|i n|i n|i x|i x|i n r|i n|i x|i x|i x|i x|i x|i|i x|i|i|i]; cbn in *; try lia; try specialize (H x eq_refl); destruct (Nat.eqb i j); lia.
Qed.
Lemma sum_mono (f h : nat -> Z) l : (forall x, f x <= h x) -> fold_right (fun i a => f i + a) 0 l <= fold_right (fun i a => h i + a) 0 l.
Proof. intros H. induction l as [|x l IH]; cbn; [lia|]. specialize (H x). lia. Qed.
Lemma sum_opp (f : nat -> Z) l : fold_right (fun i a => - f i + a) 0 l = - fold_right (fun i a => f i + a) 0 l.
Proof. induction l as [|x l IH]; cbn; [reflexivity|]. lia. Qed.
Lemma size_bound g N S home s j : wfg g -> lcreach g N S home s ->
  0 <= csz (srcs s j) <= bound g N /\ bytes (cq (srcs s j)) + total (fun t => coming j (cat_ s t)) N - total (fun t => match cat_ s t with PFSize i x => if Nat.eqb i j then snd x else 0 | _ => 0 end) N <= bound g N.
Proof.
  intros W R. destruct (lc_inv _ _ _ _ _ W R) as (K & O & Z & _). pose proof (size_pos g N s j K O Z). pose proof (zi_bound _ _ _ Z j).
  pose proof (total_ge (fun t => coming j (cat_ s t)) N (fun t _ => proj1 (zi_small _ _ _ Z j t))). split; [lia|].
  pose proof (zi_size _ _ _ Z j). 
  assert (Hh : forall t x, hand (cat_ s t) = Some x -> 0 < snd x) by (intros t x I; apply (oi_pos _ O), (oi_in _ O (AtHand t)), I).
  assert (Q : - total (fun t => match cat_ s t with PFSize i x => if Nat.eqb i j then snd x else 0 | _ => 0 end) N <= total (fun t => late j (cat_ s t)) N).
  { unfold total. rewrite <- sum_opp. apply sum_mono. intros t. specialize (Hh t).
    destruct (cat_ s t) as [|i n|i n|i x|i x|i n r|i n|i x|i x|i x|i x|i x|i|i x|i|i|i]; cbn in *; try lia; try specialize (Hh x eq_refl); destruct (Nat.eqb i j); lia. }
  lia.
Qed.
Lemma cache_bound g N S home s j : wfg g -> lcreach g N S home s -> bytes (cq (srcs s j)) <= bound g N.
Proof.
  intros W R. destruct (size_bound g N S home s j W R) as [_ B]. destruct (lc_inv _ _ _ _ _ W R) as (K & O & Z & _).
  assert (Q : total (fun t => match cat_ s t with PFSize i x => if Nat.eqb i j then snd x else 0 | _ => 0 end) N <= total (fun t => coming j (cat_ s t)) N).
  { unfold total. apply sum_mono. intros t. pose proof (zi_small _ _ _ Z j t) as P. destruct (cat_ s t); cbn in *; lia. }
  lia.
Qed.
Lemma counter_home g N S s j : wfg g -> lcreach g N S true s -> count_home j (held s) <= ccnt (srcs s j) /\ (calm_lc s -> ccnt (srcs s j) = count_home j (held s)).
Proof.
  intros W R. pose proof (lc_home _ _ _ _ W R j) as H. split.
  - assert (0 <= total (fun t => owes j (cat_ s t)) N); [|lia]. apply total_ge. intros t _.
    destruct (cat_ s t) as [|i n|i n|i x|i x|i n r|i n|i x|i x|i x|i x|i x|i|i x|i|i|i]; cbn; try lia; try (destruct r; try lia); destruct (Nat.eqb i j); lia.
  - intros C. rewrite total_0 in H; [lia|]. intros t _. rewrite (C t). reflexivity.
Qed.
Lemma counter_sum g N S home s : wfg g -> lcreach g N S home s -> calm_lc s -> total (fun j => ccnt (srcs s j)) S = Z.of_nat (length (held s)).
Proof. intros W R C. destruct (lc_inv _ _ _ _ _ W R) as (_ & _ & _ & T). rewrite (ti_sum _ _ _ T), total_0; [lia|]. intros t _. rewrite (C t). reflexivity. Qed.

(** ** Progress *)
Definition rank (p : cplace) : Z :=
  match p with
  | PIdle => 0 | PCnt _ _ => 1 | PMap _ _ => 2 | PUnl _ _ _ => 3 | PDec _ _ => 4 | PTook _ _ => 5 | PFind _ _ => 6 | PLock _ _ => 7
  | PFCnt _ => 1 | PUnmap _ _ => 2 | PFUnl _ => 2 | PFSize _ _ => 3 | PFLink _ _ => 4 | PFLock _ _ => 5 | PTest _ _ => 6 | PCLock _ => 2 | PCGo _ => 1
  end.
Lemma rank_pos p : 0 <= rank p. Proof. destruct p; cbn; lia. Qed.
Lemma fresh_addr (l : list (Z * Z)) n : exists a, forall x, In x l -> apart (a, n) x.
Proof.
  induction l as [|y l [a IH]]; [exists 0; intros x []|].
  assert (G : forall l : list (Z * Z), exists m, forall x, In x l -> fst x + snd x <= m).
  { clear. induction l as [|y l [m IH]]; [exists 0; intros x []|]. exists (Z.max m (fst y + snd y)). intros x [<-|I]; [lia|specialize (IH x I); lia]. }
  destruct (G (y :: l)) as [m H]. exists m. intros x I. right. cbn. exact (H x I).
Qed.
Definition waits (p : cplace) : option nat := match p with PLock j _ | PFLock j _ => Some j | _ => None end.
Lemma advance g N S home s t : wfg g -> lcreach g N S home s -> cat_ s t <> PIdle -> (forall j, waits (cat_ s t) = Some j -> clk (srcs s j) = None) ->
  exists a s', lcok N S home s (AGo t a) /\ lcstep g (AGo t a) s = Ok s' /\ (exists p, cat_ s' = place_of s t p /\ rank p < rank (cat_ s t)) /\ (t < N)%nat.
Proof.
  intros W R NI F. destruct (lc_inv _ _ _ _ _ W R) as (K & O & _).
  assert (L : (t < N)%nat) by (destruct (Nat.lt_ge_cases t N) as [L|L]; [exact L|]; contradiction NI; apply (ki_out _ _ K), L).
  assert (C : exists a, lcok N S home s (AGo t a)).
  { destruct (cat_ s t) as [|j n|j n|j x|j x|j n r|j n|j x|j x|j x|j x|j x|j|j x|j|j|j] eqn:Ep; try (exists 0; split; [exact L|intros; congruence]).
    destruct (fresh_addr (maps s) n) as [a H]. exists a. split; [exact L|]. intros j' n' E. rewrite Ep in E. injection E as <- <-. exact H. }
  destruct C as [a C]. destruct (no_fault _ _ _ _ _ _ W R C) as [s' H]. exists a, s'. split; [exact C|]. split; [exact H|]. split; [|exact L].
  cbn in H. pose proof (ki_clean _ _ K t) as KC.
  destruct (cat_ s t) as [|j n|j n|j x|j x|j n r|j n|j x|j x|j x|j x|j x|j|j x|j|j|j] eqn:Ep; cbn in KC; try contradiction; cbn [waits] in F.
  - rewrite (F j eq_refl) in H. injection H as <-. eexists; split; [cbn [cat_]; reflexivity|cbn; lia].
  - destruct (take n (cq (srcs s j))) as [[x l]|]; injection H as <-; (eexists; split; [cbn [cat_]; reflexivity|cbn; lia]).
  - injection H as <-. eexists; split; [cbn [cat_]; reflexivity|cbn; lia].
  - injection H as <-. eexists; split; [cbn [cat_]; reflexivity|cbn; lia].
  - destruct r as [x|]; injection H as <-; (eexists; split; [cbn [cat_]; reflexivity|cbn; lia]).
  - injection H as <-. eexists; split; [cbn [cat_]; reflexivity|cbn; lia].
  - injection H as <-. eexists; split; [cbn [cat_]; reflexivity|cbn; lia].
  - injection H as <-. eexists; split; [cbn [cat_]; reflexivity|]. destruct ((snd x <=? keep_max g) && (csz (srcs s j) <=? keep_mem g)); cbn; lia.
  - rewrite (F j eq_refl) in H. injection H as <-. eexists; split; [cbn [cat_]; reflexivity|cbn; lia].
  - injection H as <-. eexists; split; [cbn [cat_]; reflexivity|cbn; lia].
  - injection H as <-. eexists; split; [cbn [cat_]; reflexivity|cbn; lia].
  - injection H as <-. eexists; split; [cbn [cat_]; reflexivity|cbn; lia].
  - destruct (existsb (seg_eqb x) (maps s)); [|discriminate]. injection H as <-. eexists; split; [cbn [cat_]; reflexivity|cbn; lia].
  - injection H as <-. eexists; split; [cbn [cat_]; reflexivity|cbn; lia].
Qed.
Lemma busy_dec s n : (forall t, (t < n)%nat -> cat_ s t = PIdle) \/ exists t, (t < n)%nat /\ cat_ s t <> PIdle.
Proof.
  induction n as [|n [IH|(t & L & E)]]; [left; intros; lia| |right; exists t; split; [lia|exact E]].
  assert (D : cat_ s n = PIdle \/ cat_ s n <> PIdle) by (destruct (cat_ s n); (left; reflexivity) || (right; discriminate)).
  destruct D as [D|D]; [|right; exists n; split; [lia|exact D]]. left. intros t L. destruct (Nat.eq_dec t n) as [->|Nt]; [exact D|apply IH; lia].
Qed.
Lemma can_finish g N S home s : wfg g -> lcreach g N S home s -> exists s', lcgo g N S home s s' /\ lcreach g N S home s' /\ calm_lc s'.
Proof.
  intros W. remember (Z.to_nat (total (fun t => rank (cat_ s t)) N)) as k eqn:Ek. revert s Ek.
  induction k as [k IH] using lt_wf_ind. intros s Ek R. destruct (lc_inv _ _ _ _ _ W R) as (K & O & _).
  destruct (busy_dec s N) as [C|(t & L & E)].
  - exists s. split; [constructor|]. split; [exact R|]. intros t. destruct (Nat.lt_ge_cases t N) as [L|L]; [auto|apply (ki_out _ _ K), L].
  - assert (D : exists u, cat_ s u <> PIdle /\ forall j, waits (cat_ s u) = Some j -> clk (srcs s j) = None).
    { destruct (waits (cat_ s t)) as [j|] eqn:Wt; [|exists t; split; [exact E|intros j B; congruence]].
      destruct (clk (srcs s j)) as [u|] eqn:Ec; [|exists t; split; [exact E|intros i B; congruence]].
      apply (ki_lock _ _ K) in Ec. exists u. destruct (cat_ s u); cbn in Ec; try contradiction; (split; [discriminate|intros i B; discriminate B]). }
    destruct D as (u & E' & F). destruct (advance g N S home s u W R E' F) as (a & s1 & C & H & (p & Ep & Lr) & Lu).
    assert (R1 : lcreach g N S home s1) by (econstructor; eassumption).
    assert (Q : total (fun v => rank (cat_ s1 v)) N = total (fun v => rank (cat_ s v)) N - rank (cat_ s u) + rank p) by (rewrite Ep; apply tot_place; exact Lu).
    pose proof (total_ge (fun v => rank (cat_ s1 v)) N (fun v _ => rank_pos _)) as P.
    destruct (IH (Z.to_nat (total (fun v => rank (cat_ s1 v)) N))) with (s := s1) as (s' & G & R' & Cm); [lia|reflexivity|exact R1|].
    exists s'. split; [econstructor; eassumption|]. split; assumption.
Qed.

(** ** Cleanup *)
Definition dead (j : nat) (s : lcst) : Prop := clk (srcs s j) <> None /\ forall u, ~ locked_in j (cat_ s u).
Lemma dead_upd s s' j t p : dead j s -> clk (srcs s' j) = clk (srcs s j) -> cat_ s' = place_of s t p -> ~ locked_in j p -> dead j s'.
Proof.
  intros [A B] E P Q. split; [rewrite E; exact A|]. intros u. rewrite P. destruct (Nat.eq_dec u t) as [->|Nu]; [rewrite place_same; exact Q|rewrite place_other by exact Nu; apply B].
Qed.
Lemma dead_step g j s a s' : dead j s -> lcstep g a s = Ok s' -> dead j s'.
Proof.
  intros D H. destruct a as [t i n|t i x|t i|t a]; cbn in H.
  - destruct (cat_ s t); injection H as <-; try exact D. eapply (dead_upd s); [exact D|reflexivity|cbn [cat_]; reflexivity|]. destruct (n <=? keep_max g); cbn; tauto.
  - destruct (cat_ s t); injection H as <-; try exact D. eapply (dead_upd s); [exact D|reflexivity|cbn [cat_]; reflexivity|cbn; tauto].
  - destruct (cat_ s t); injection H as <-; try exact D. eapply (dead_upd s); [exact D|reflexivity|cbn [cat_]; reflexivity|cbn; tauto].
  - pose proof (proj2 D t) as B. pose proof (proj1 D) as A.
    assert (X : forall i c, clk c = clk (srcs s i) -> clk (src_of s i c j) = clk (srcs s j)) by (intros i c Q; unfold src_of; destruct (Nat.eqb_spec j i) as [->|Ni]; [exact Q|reflexivity]).
    assert (Y : forall i c, i <> j -> clk (src_of s i c j) = clk (srcs s j)) by (intros i c Q; rewrite src_other by congruence; reflexivity).
    destruct (cat_ s t) as [|i n|i n|i x|i x|i n r|i n|i x|i x|i x|i x|i x|i|i x|i|i|i] eqn:Ep; cbn in B.
    + injection H as <-. exact D.
    + destruct (clk (srcs s i)) eqn:Ec; injection H as <-; [exact D|]. assert (i <> j) by congruence. eapply (dead_upd s); [exact D|cbn [srcs]; now apply Y|cbn [cat_]; reflexivity|exact H].
    + destruct (take n (cq (srcs s i))) as [[x l]|]; injection H as <-; (eapply (dead_upd s); [exact D|cbn [srcs]; first [reflexivity|apply X; reflexivity]|cbn [cat_]; reflexivity|exact B]).
    + injection H as <-. eapply (dead_upd s); [exact D|cbn [srcs]; apply X; reflexivity|cbn [cat_]; reflexivity|exact B].
    + injection H as <-. eapply (dead_upd s); [exact D|cbn [srcs]; apply X; reflexivity|cbn [cat_]; reflexivity|exact B].
    + destruct r as [x|]; injection H as <-; (eapply (dead_upd s); [exact D|cbn [srcs]; now apply Y|cbn [cat_]; reflexivity|cbn; tauto]).
    + injection H as <-. eapply (dead_upd s); [exact D|reflexivity|cbn [cat_]; reflexivity|cbn; tauto].
    + injection H as <-. eapply (dead_upd s); [exact D|cbn [srcs]; apply X; reflexivity|cbn [cat_]; reflexivity|cbn; tauto].
    + injection H as <-. eapply (dead_upd s); [exact D|reflexivity|cbn [cat_]; reflexivity|]. destruct ((snd x <=? keep_max g) && (csz (srcs s i) <=? keep_mem g)); cbn; tauto.
    + destruct (clk (srcs s i)) eqn:Ec; injection H as <-; [exact D|]. assert (i <> j) by congruence. eapply (dead_upd s); [exact D|cbn [srcs]; now apply Y|cbn [cat_]; reflexivity|exact H].
    + injection H as <-. eapply (dead_upd s); [exact D|cbn [srcs]; apply X; reflexivity|cbn [cat_]; reflexivity|exact B].
    + injection H as <-. eapply (dead_upd s); [exact D|cbn [srcs]; apply X; reflexivity|cbn [cat_]; reflexivity|exact B].
    + injection H as <-. eapply (dead_upd s); [exact D|cbn [srcs]; now apply Y|cbn [cat_]; reflexivity|cbn; tauto].
    + destruct (existsb (seg_eqb x) (maps s)); [|discriminate]. injection H as <-. eapply (dead_upd s); [exact D|reflexivity|cbn [cat_]; reflexivity|cbn; tauto].
    + injection H as <-. eapply (dead_upd s); [exact D|cbn [srcs]; apply X; reflexivity|cbn [cat_]; reflexivity|cbn; tauto].
    + destruct (clk (srcs s i)) eqn:Ec; injection H as <-; [exact D|]. assert (i <> j) by congruence. eapply (dead_upd s); [exact D|cbn [srcs]; now apply Y|cbn [cat_]; reflexivity|exact H].
    + destruct (ccnt (srcs s i) =? 0); [|discriminate]. injection H as <-. eapply (dead_upd s); [exact D|reflexivity|cbn [cat_]; reflexivity|cbn; tauto].
Qed.
Lemma dead_runs g j s l s' : lcruns g s l s' -> dead j s -> dead j s'.
Proof. induction 1 as [|s a s1 l s2 H R IH]; [auto|]. intros D. apply IH. exact (dead_step _ _ _ _ _ D H). Qed.
(** The state after the three steps of a cleanup. *)
Lemma cleaned g N S home s t j : wfg g -> lcreach g N S home s -> calm_lc s -> (t < N)%nat -> ccnt (srcs s j) = 0 ->
  exists s', lcruns g s [AClean t j; AGo t 0; AGo t 0] s' /\ dead j s' /\ cq (srcs s' j) = cq (srcs s j) /\
    (forall x, In x (maps s') <-> In x (maps s) /\ ~ In x (cq (srcs s j))) /\ forall i, i <> j -> srcs s' i = srcs s i.
Proof.
  intros W R C L Z. destruct (lc_inv _ _ _ _ _ W R) as (K & O & _).
  assert (Fr : clk (srcs s j) = None).
  { destruct (clk (srcs s j)) as [u|] eqn:E; [|reflexivity]. apply (ki_lock _ _ K) in E. rewrite (C u) in E. contradiction. }
  set (s1 := mkLc (srcs s) (held s) (maps s) (place_of s t (PCLock j))).
  set (s2 := mkLc (src_of s1 j (mkCs (cq (srcs s j)) (csz (srcs s j)) (ccnt (srcs s j)) (Some t))) (held s) (maps s) (place_of s1 t (PCGo j))).
  set (s3 := mkLc (srcs s2) (held s) (filter (fun y => negb (existsb (seg_eqb y) (cq (srcs s2 j)))) (maps s)) (place_of s2 t PIdle)).
  assert (H1 : lcstep g (AClean t j) s = Ok s1) by (cbn; rewrite (C t); reflexivity).
  assert (H2 : lcstep g (AGo t 0) s1 = Ok s2) by (cbn; rewrite place_same, Fr; reflexivity).
  assert (Q : srcs s2 j = mkCs (cq (srcs s j)) (csz (srcs s j)) (ccnt (srcs s j)) (Some t)) by (cbn; apply src_same).
  assert (H3 : lcstep g (AGo t 0) s2 = Ok s3).
  { cbn [lcstep]. replace (cat_ s2 t) with (PCGo j) by (cbn; rewrite place_same; reflexivity). cbv beta iota zeta. replace (ccnt (srcs s2 j) =? 0) with true; [reflexivity|]. rewrite Q. cbn. rewrite Z. reflexivity. }
  exists s3. split; [|split; [split|split; [|split]]].
  - econstructor; [exact H1|]. econstructor; [exact H2|]. econstructor; [exact H3|constructor].
  - change (srcs s3 j) with (srcs s2 j). rewrite Q. discriminate.
  - intros u. change (cat_ s3) with (place_of s2 t PIdle). destruct (Nat.eq_dec u t) as [->|Nu]; [rewrite place_same; cbn; tauto|].
    rewrite place_other by exact Nu. cbn [cat_ s2]. rewrite place_other by exact Nu. cbn [cat_ s1]. rewrite place_other by exact Nu. rewrite (C u). cbn. tauto.
  - change (srcs s3 j) with (srcs s2 j). rewrite Q. reflexivity.
  - intros x. change (maps s3) with (filter (fun y => negb (existsb (seg_eqb y) (cq (srcs s2 j)))) (maps s)). rewrite Q. cbn [cq]. rewrite filter_In, negb_true_iff.
    assert (Ex : existsb (seg_eqb x) (cq (srcs s j)) = true <-> In x (cq (srcs s j))).
    { rewrite existsb_exists. split; [intros (y & I & E)|intros I; exists x; split; [exact I|]]; [destruct (seg_eqb_spec x y) as [->|]; [exact I|discriminate]|destruct (seg_eqb_spec x x); [reflexivity|contradiction]]. }
    destruct (existsb (seg_eqb x) (cq (srcs s j))); intuition congruence.
  - intros i Ni. change (srcs s3 i) with (srcs s2 i). cbn. rewrite src_other by exact Ni. reflexivity.
Qed.
