(** Proofs about CounterModel.v. *)
From Verif Require Import CounterModel.
From Coq Require Import ZArith List Bool Lia Permutation.
Import ListNotations.
Open Scope Z_scope.

Definition nwrote (l : list pc) : Z := Z.of_nat (length (filter wrote l)).
Lemma nwrote_le l : nwrote l <= Z.of_nat (length l).
Proof. unfold nwrote. induction l as [|x l IH]; cbn [filter length]; [lia|]. destruct (wrote x); cbn [length]; lia. Qed.
Lemma nwrote_all l : nwrote l = Z.of_nat (length l) -> forall p, In p l -> wrote p = true.
Proof.
  induction l as [|x l IH]; intros H p Hp; [destruct Hp|]. pose proof (nwrote_le l) as K. unfold nwrote in *. cbn [filter length] in H. destruct (wrote x) eqn:Ex; cbn [length] in H; [|lia].
  destruct Hp as [<-|Hp]; [exact Ex|]. apply IH; [lia|exact Hp].
Qed.
Lemma put_len i p : forall l, length (put i p l) = length l.
Proof. revert p. induction i as [|i IH]; intros p [|x l]; cbn [put length]; try reflexivity. rewrite IH. reflexivity. Qed.
Lemma put_in i p q : forall l, In q (put i p l) -> q = p \/ In q l.
Proof. induction i as [|i IH]; intros [|x l]; cbn [put In]; try tauto; [intros [H|H]; auto|]. intros [H|H]; [auto|]. destruct (IH _ H); auto. Qed.
Lemma put_wrote i p x : forall l, nth_error l i = Some x -> nwrote (put i p l) = nwrote l - (if wrote x then 1 else 0) + (if wrote p then 1 else 0).
Proof.
  unfold nwrote. induction i as [|i IH]; intros [|y l] H; cbn [nth_error put filter] in *; try discriminate.
  - injection H as ->. destruct (wrote x), (wrote p); cbn [length]; lia.
  - specialize (IH l H). destruct (wrote y); cbn [length]; lia.
Qed.
Definition dec (p : pc) : Prop := match p with Start k | Read k _ | Wrote k | Over k => k = Dec end.
Record CI (n : nat) (s : cnt_st) : Prop := { ci_len : length (pcs s) = n; ci_dec : forall p, In p (pcs s) -> dec p; ci_cnt : Z.of_nat n - nwrote (pcs s) <= cnt s;
  ci_read : forall k v, In (Read k v) (pcs s) -> Z.of_nat n - nwrote (pcs s) <= v; ci_call : calls s <> 0%nat -> nwrote (pcs s) = Z.of_nat n; ci_calls : (calls s <= length (filter over (pcs s)))%nat }.
Lemma put_over i p x : forall l, nth_error l i = Some x -> over x = false -> (length (filter over (put i p l)) = length (filter over l) + (if over p then 1 else 0))%nat.
Proof.
  induction i as [|i IH]; intros [|y l] H Hx; cbn [nth_error put filter] in *; try discriminate.
  - injection H as ->. rewrite Hx. destruct (over p); cbn [length]; lia.
  - specialize (IH l H Hx). destruct (over y); cbn [length]; lia.
Qed.
Lemma ci_step n i s : CI n s -> CI n (step i s).
Proof.
  intros [I1 I2 I3 I4 I5 I6]. unfold step. destruct (nth_error (pcs s) i) as [p|] eqn:E; [|constructor; assumption]. assert (HI : In p (pcs s)) by (exact (nth_error_In _ _ E)). pose proof (I2 _ HI) as HD.
  destruct p as [k|k v|k|k]; cbn [dec] in HD; subst k.
  - pose proof (put_wrote i (Read Dec (cnt s)) _ _ E) as PW. pose proof (put_over i (Read Dec (cnt s)) _ _ E eq_refl) as PO. cbn [wrote over] in PW, PO. constructor; cbn [cnt pcs calls].
    + rewrite put_len. exact I1.
    + intros q Hq. apply put_in in Hq as [->|Hq]; [reflexivity|exact (I2 q Hq)].
    + lia.
    + intros k v Hq. apply put_in in Hq as [Hq|Hq]; [injection Hq as -> ->; lia|pose proof (I4 _ _ Hq); lia].
    + intros H. pose proof (I5 H). lia.
    + lia.
  - pose proof (put_wrote i (Wrote Dec) _ _ E) as PW. pose proof (put_over i (Wrote Dec) _ _ E eq_refl) as PO. cbn [wrote over] in PW, PO. pose proof (I4 _ _ HI) as HV. constructor; cbn [cnt pcs calls].
    + rewrite put_len. exact I1.
    + intros q Hq. apply put_in in Hq as [->|Hq]; [reflexivity|exact (I2 q Hq)].
    + lia.
    + intros k v' Hq. apply put_in in Hq as [Hq|Hq]; [discriminate|pose proof (I4 _ _ Hq); lia].
    + intros H. pose proof (I5 H). pose proof (nwrote_le (put i (Wrote Dec) (pcs s))) as K. rewrite put_len, I1 in K. lia.
    + lia.
  - pose proof (put_wrote i (Over Dec) _ _ E) as PW. pose proof (put_over i (Over Dec) _ _ E eq_refl) as PO. cbn [wrote over] in PW, PO. constructor; cbn [cnt pcs calls].
    + rewrite put_len. exact I1.
    + intros q Hq. apply put_in in Hq as [->|Hq]; [reflexivity|exact (I2 q Hq)].
    + lia.
    + intros k v' Hq. apply put_in in Hq as [Hq|Hq]; [discriminate|pose proof (I4 _ _ Hq); lia].
    + intros H. pose proof (nwrote_le (put i (Over Dec) (pcs s))) as K. rewrite put_len, I1 in K. destruct (Z.eqb_spec (cnt s) 0) as [Z0|_]; [lia|]. pose proof (I5 H). lia.
    + destruct (cnt s =? 0); lia.
  - constructor; assumption.
Qed.
Lemma ci_start n : CI n (frees_of n).
Proof.
  assert (NW : forall k, filter wrote (repeat (Start Dec) k) = [] /\ filter over (repeat (Start Dec) k) = []) by (induction k as [|k (A & B)]; [split; reflexivity|split; assumption]).
  constructor; unfold frees_of; cbn [cnt pcs calls].
  - apply repeat_length.
  - intros p H. apply repeat_spec in H. rewrite H. reflexivity.
  - unfold nwrote. rewrite (proj1 (NW n)). cbn [length]. lia.
  - intros k v H. apply repeat_spec in H. discriminate.
  - congruence.
  - lia.
Qed.
Lemma ci_sched n l : CI n (sched l (frees_of n)).
Proof. pose proof (ci_start n) as H. revert H. generalize (frees_of n). induction l as [|i l IH]; intros s H; [exact H|]. apply IH. apply ci_step. exact H. Qed.
Lemma handler_after_all n l : calls (sched l (frees_of n)) <> 0%nat -> forall p, In p (pcs (sched l (frees_of n))) -> wrote p = true.
Proof. intros H. destruct (ci_sched n l) as [I1 _ _ _ I5 _]. apply nwrote_all. rewrite I1. exact (I5 H). Qed.

(** ** Schedules *)
Lemma sched_app l1 l2 s : sched (l1 ++ l2) s = sched l2 (sched l1 s).
Proof. apply fold_left_app. Qed.
Lemma nth_mid (a : list pc) x b : nth_error (a ++ x :: b) (length a) = Some x.
Proof. rewrite nth_error_app2 by lia. rewrite Nat.sub_diag. reflexivity. Qed.
Lemma put_mid (a : list pc) x y b : put (length a) y (a ++ x :: b) = a ++ y :: b.
Proof. induction a as [|z a IH]; cbn [length app put]; [reflexivity|]. rewrite IH. reflexivity. Qed.
Lemma step_mid c a x b k : step (length a) (mkCnt c (a ++ x :: b) k) =
  match x with
  | Start q => mkCnt c (a ++ Read q c :: b) k
  | Read q v => mkCnt (match q with Dec => v - 1 | Inc => v + 1 end) (a ++ Wrote q :: b) k
  | Wrote Dec => mkCnt c (a ++ Over Dec :: b) (if c =? 0 then S k else k)
  | Wrote Inc => mkCnt c (a ++ Over Inc :: b) k
  | Over q => mkCnt c (a ++ x :: b) k
  end.
Proof. unfold step. cbn [pcs cnt calls]. rewrite nth_mid. destruct x as [q|q v|[|]|q]; rewrite ?put_mid; reflexivity. Qed.
Lemma rep_snoc (a : list pc) x m : a ++ repeat x (S m) = (a ++ [x]) ++ repeat x m.
Proof. rewrite <- app_assoc. reflexivity. Qed.
Lemma sched_cons i l s : sched (i :: l) s = sched l (step i s).
Proof. reflexivity. Qed.
Lemma len_snoc (a : list pc) x : length (a ++ [x]) = S (length a).
Proof. rewrite app_length. cbn. lia. Qed.
(** Loads and stores in turn, then the tests. *)
Lemma run_dec m : forall a k, sched (flat_map (fun i => [i; i]) (seq (length a) m)) (mkCnt (Z.of_nat m) (a ++ repeat (Start Dec) m) k) = mkCnt 0 (a ++ repeat (Wrote Dec) m) k.
Proof.
  induction m as [|m IH]; intros a k; [reflexivity|]. cbn [seq flat_map app repeat]. rewrite !sched_cons, step_mid, step_mid. replace (Z.of_nat (S m) - 1) with (Z.of_nat m) by lia.
  specialize (IH (a ++ [Wrote Dec])). rewrite len_snoc in IH. replace (a ++ Wrote Dec :: repeat (Start Dec) m) with ((a ++ [Wrote Dec]) ++ repeat (Start Dec) m) by (rewrite <- app_assoc; reflexivity). rewrite IH, <- app_assoc. reflexivity.
Qed.
Lemma run_test c m : forall a k, sched (seq (length a) m) (mkCnt c (a ++ repeat (Wrote Dec) m) k) = mkCnt c (a ++ repeat (Over Dec) m) (if c =? 0 then m + k else k).
Proof.
  induction m as [|m IH]; intros a k; [cbn; destruct (c =? 0); reflexivity|]. cbn [seq repeat]. rewrite sched_cons, step_mid.
  specialize (IH (a ++ [Over Dec])). rewrite len_snoc in IH. replace (a ++ Over Dec :: repeat (Wrote Dec) m) with ((a ++ [Over Dec]) ++ repeat (Wrote Dec) m) by (rewrite <- app_assoc; reflexivity). rewrite IH, <- app_assoc. cbn [app].
  f_equal. destruct (c =? 0); lia.
Qed.
Lemma run_read c m : forall a k, sched (seq (length a) m) (mkCnt c (a ++ repeat (Start Dec) m) k) = mkCnt c (a ++ repeat (Read Dec c) m) k.
Proof.
  induction m as [|m IH]; intros a k; [reflexivity|]. cbn [seq repeat]. rewrite sched_cons, step_mid.
  specialize (IH (a ++ [Read Dec c])). rewrite len_snoc in IH. replace (a ++ Read Dec c :: repeat (Start Dec) m) with ((a ++ [Read Dec c]) ++ repeat (Start Dec) m) by (rewrite <- app_assoc; reflexivity). rewrite IH, <- app_assoc. reflexivity.
Qed.
Lemma run_store v m : forall c a k, sched (seq (length a) (S m)) (mkCnt c (a ++ repeat (Read Dec v) (S m)) k) = mkCnt (v - 1) (a ++ repeat (Wrote Dec) (S m)) k.
Proof.
  induction m as [|m IH]; intros c a k.
  - cbn [seq repeat]. rewrite sched_cons, step_mid. reflexivity.
  - change (seq (length a) (S (S m))) with (length a :: seq (S (length a)) (S m)). change (repeat (Read Dec v) (S (S m))) with (Read Dec v :: repeat (Read Dec v) (S m)). rewrite sched_cons, step_mid.
    specialize (IH (v - 1) (a ++ [Wrote Dec])). rewrite len_snoc in IH. replace (a ++ Wrote Dec :: repeat (Read Dec v) (S m)) with ((a ++ [Wrote Dec]) ++ repeat (Read Dec v) (S m)) by (rewrite <- app_assoc; reflexivity). rewrite IH, <- app_assoc. reflexivity.
Qed.
(** One after the other, in any order. *)
Lemma nth_put_same i p : forall l x, nth_error l i = Some x -> nth_error (put i p l) i = Some p.
Proof. induction i as [|i IH]; intros [|y l] x H; cbn [nth_error put] in *; try discriminate; [reflexivity|exact (IH l x H)]. Qed.
Lemma nth_put_other i j p : forall l, i <> j -> nth_error (put i p l) j = nth_error l j.
Proof. revert j. induction i as [|i IH]; intros [|j] [|y l] N; cbn [nth_error put]; try reflexivity; [congruence|]. apply IH. congruence. Qed.
Lemma put_put i p q : forall l, put i q (put i p l) = put i q l.
Proof. induction i as [|i IH]; intros [|y l]; cbn [put]; try reflexivity. rewrite IH. reflexivity. Qed.
Lemma whole_free i s : nth_error (pcs s) i = Some (Start Dec) -> sched [i; i; i] s = mkCnt (cnt s - 1) (put i (Over Dec) (pcs s)) (if cnt s - 1 =? 0 then S (calls s) else calls s).
Proof.
  intros H. unfold sched. cbn [fold_left]. unfold step at 3. rewrite H. unfold step at 2. cbn [pcs cnt calls]. rewrite (nth_put_same _ _ _ _ H). unfold step. cbn [pcs cnt calls]. rewrite put_put, (nth_put_same _ _ _ _ H), put_put. reflexivity.
Qed.
Lemma run_order l : forall s, NoDup l -> (forall i, In i l -> nth_error (pcs s) i = Some (Start Dec)) -> cnt s = Z.of_nat (length l) ->
  calls (sched (flat_map (fun i => [i; i; i]) l) s) = (calls s + (if Nat.eqb (length l) 0 then 0 else 1))%nat.
Proof.
  induction l as [|i l IH]; intros s ND H HC; [cbn; lia|]. cbn [flat_map]. rewrite sched_app, (whole_free i s (H i (or_introl eq_refl))). cbn [length] in HC. apply NoDup_cons_iff in ND as (NI & ND). rewrite IH; cbn [cnt pcs calls].
  - cbn [length]. destruct l as [|j l]; cbn [length Nat.eqb] in *; [replace (cnt s - 1 =? 0) with true by (symmetry; apply Z.eqb_eq; lia)|replace (cnt s - 1 =? 0) with false by (symmetry; apply Z.eqb_neq; lia)]; lia.
  - exact ND.
  - intros j Hj. rewrite nth_put_other by (intros ->; contradiction). exact (H j (or_intror Hj)).
  - lia.
Qed.
Lemma one_by_one n l : (0 < n)%nat -> Permutation l (seq 0 n) -> calls (sched (flat_map (fun i => [i; i; i]) l) (frees_of n)) = 1%nat.
Proof.
  intros H P. pose proof (Permutation_length P) as L. rewrite seq_length in L. rewrite run_order; unfold frees_of; cbn [cnt pcs calls].
  - rewrite L. destruct n; [lia|reflexivity].
  - exact (Permutation_NoDup (Permutation_sym P) (seq_NoDup n 0)).
  - intros i Hi. apply (Permutation_in _ P) in Hi. apply in_seq in Hi. apply nth_error_repeat. lia.
  - rewrite L. reflexivity.
Qed.
Lemma handler_many n : exists l, sched l (frees_of n) = mkCnt 0 (repeat (Over Dec) n) n.
Proof.
  exists (flat_map (fun i => [i; i]) (seq 0 n) ++ seq 0 n). unfold frees_of. rewrite sched_app. pose proof (run_dec n [] 0) as E. cbn [length app] in E. rewrite E. pose proof (run_test 0 n [] 0) as E'. cbn [length app] in E'. rewrite E'.
  cbn [Z.eqb]. f_equal. lia.
Qed.
Lemma handler_never n : (2 <= n)%nat -> exists l, sched l (frees_of n) = mkCnt (Z.of_nat n - 1) (repeat (Over Dec) n) 0.
Proof.
  intros H. exists (seq 0 n ++ seq 0 n ++ seq 0 n). unfold frees_of. rewrite !sched_app. pose proof (run_read (Z.of_nat n) n [] 0) as E. cbn [length app] in E. rewrite E. destruct n as [|n]; [lia|].
  pose proof (run_store (Z.of_nat (S n)) n (Z.of_nat (S n)) [] 0) as E1. cbn [length app] in E1. rewrite E1. pose proof (run_test (Z.of_nat (S n) - 1) (S n) [] 0) as E2. cbn [length app] in E2. rewrite E2.
  replace (Z.of_nat (S n) - 1 =? 0) with false by (symmetry; apply Z.eqb_neq; lia). reflexivity.
Qed.
