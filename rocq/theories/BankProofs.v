From Verif Require Import Word Res NodeModel BankModel BankSpec.
From Coq Require Import ZArith String List Bool Lia Arith.
Import ListNotations.
Open Scope Z_scope.

Lemma mcdram_sub b : mcdram b = true <-> b_sub b = Some "MCDRAM"%string.
Proof.
  unfold mcdram. destruct (b_sub b) as [s|]; [|split; discriminate]. destruct (String.eqb_spec s "MCDRAM") as [E|N].
  - split; intros _; [f_equal; exact E|reflexivity].
  - split; [discriminate|]. intros E. injection E as E. contradiction.
Qed.
(** The last bank: what a search that runs alone finds. *)
Fixpoint last_bank (d : Z) (ns : list bank) : Z := match ns with [] => d | b :: l => last_bank (if mcdram b then b_idx b else d) l end.
Definition some_bank (l : list bank) : bool := existsb mcdram l.
Lemma last_bank_free : forall l d e, some_bank l = true -> last_bank d l = last_bank e l.
Proof.
  induction l as [|b l IH]; intros d e H; [discriminate|]. cbn [last_bank]. cbn [some_bank existsb] in H. unfold some_bank in IH.
  destruct (mcdram b) eqn:M; [reflexivity|]. apply IH. exact H.
Qed.
Lemma last_bank_none : forall l d, some_bank l = false -> last_bank d l = d.
Proof.
  induction l as [|b l IH]; intros d H; [reflexivity|]. cbn [last_bank]. cbn [some_bank existsb] in H. apply orb_false_iff in H. destruct H as (H1 & H2).
  rewrite H1. apply IH. exact H2.
Qed.
Lemma last_bank_in : forall l d, some_bank l = true -> exists b, In b l /\ mcdram b = true /\ last_bank d l = b_idx b.
Proof.
  induction l as [|b l IH]; intros d H; [discriminate|]. cbn [last_bank]. cbn [some_bank existsb] in H.
  destruct (some_bank l) eqn:S.
  - destruct (IH (if mcdram b then b_idx b else d) eq_refl) as (c & C1 & C2 & C3). exists c. split; [right; exact C1|]. split; assumption.
  - rewrite (last_bank_none _ _ S). exists b. unfold some_bank in S. rewrite S, orb_false_r in H. split; [left; reflexivity|]. split; [exact H|]. rewrite H. reflexivity.
Qed.
Definition goal (ns : list bank) : Z := last_bank (-1) ns.
Lemma some_bank_has ns : some_bank ns = true <-> exists v, has_bank ns v.
Proof.
  unfold some_bank. rewrite existsb_exists. split.
  - intros (b & B1 & B2). exists (b_idx b), b. split; [exact B1|]. split; [apply mcdram_sub; exact B2|reflexivity].
  - intros (v & b & B1 & B2 & _). exists b. split; [exact B1|apply mcdram_sub; exact B2].
Qed.
Lemma goal_right ns : right_answer ns (goal ns).
Proof.
  unfold goal. destruct (some_bank ns) eqn:S.
  - left. destruct (last_bank_in ns (-1) S) as (b & B1 & B2 & B3). exists b. split; [exact B1|]. split; [apply mcdram_sub; exact B2|symmetry; exact B3].
  - right. split; [apply last_bank_none; exact S|]. intros w H. assert (T : some_bank ns = true) by (apply some_bank_has; exists w; exact H). rewrite S in T. discriminate.
Qed.

(** A thread in the loop will still store the index of a bank. *)
Definition will_store (s : bst) : Prop := exists t l, b_at s t = BScan l /\ some_bank l = true.
Definition suffix (l ns : list bank) : Prop := exists p, ns = (p ++ l)%list.
Record BI (ns : list bank) (s : bst) : Prop := {
  bi_res : b_res s = -2 \/ b_res s = -1 \/ has_bank ns (b_res s);
  bi_first : b_res s = -2 -> forall t, b_at s t = BTest \/ b_at s t = BMark \/ b_at s t = BOut None;
  bi_suf : forall t l, b_at s t = BScan l -> suffix l ns;
  bi_end : b_res s = -2 \/ b_res s = goal ns \/ will_store s }.

Lemma goto_same s t p : b_at (goto s t p) t = p.
Proof. cbn. rewrite Nat.eqb_refl. reflexivity. Qed.
Lemma goto_other s t p u : u <> t -> b_at (goto s t p) u = b_at s u.
Proof. intros N. cbn. destruct (Nat.eqb_spec u t); [contradiction|reflexivity]. Qed.
Lemma suffix_some l ns : suffix l ns -> some_bank l = true -> some_bank ns = true.
Proof. intros (p & ->) H. unfold some_bank in *. rewrite existsb_app, H. apply orb_true_r. Qed.
Lemma suffix_goal l ns : suffix l ns -> some_bank l = true -> goal ns = last_bank (-1) l.
Proof.
  intros (p & ->) H. unfold goal. generalize (-1). induction p as [|b p IH]; intros d; [reflexivity|]. cbn [last_bank app]. rewrite IH.
  - apply last_bank_free. exact H.
Qed.
Lemma numbered_has ns v : numbered ns -> has_bank ns v -> 0 <= v < Z.of_nat (length ns).
Proof.
  intros N (b & B1 & _ & <-). apply In_nth_error in B1. destruct B1 as (i & E). rewrite (N _ _ E).
  assert (i < length ns)%nat by (apply nth_error_Some; rewrite E; discriminate). lia.
Qed.

Lemma will_keep s s' t : b_at s' = b_at (goto s t (b_at s' t)) -> (forall l, b_at s t = BScan l -> some_bank l = true -> exists l', b_at s' t = BScan l' /\ some_bank l' = true) ->
  will_store s -> will_store s'.
Proof.
  intros E K (u & l & H1 & H2). destruct (Nat.eq_dec u t) as [E1|N].
  - subst u. destruct (K l H1 H2) as (l' & K1 & K2). exists t, l'. split; assumption.
  - exists u, l. split; [|exact H2]. rewrite E. rewrite goto_other by exact N. exact H1.
Qed.

Lemma bi_step ns s t : numbered ns -> BI ns s -> BI ns (bgo ns t s).
Proof.
  intros NU [R F U E]. unfold bgo. destruct (b_at s t) as [v| | |l|] eqn:P.
  - constructor.
    + exact R.
    + intros H u. cbn [b_res goto] in H. destruct (Nat.eq_dec u t) as [->|N]; [rewrite goto_same; left; reflexivity|rewrite goto_other by exact N; apply F; exact H].
    + intros u l. destruct (Nat.eq_dec u t) as [->|N]; [rewrite goto_same; discriminate|rewrite goto_other by exact N; apply U].
    + destruct E as [E|[E|E]]; [left; exact E|right; left; exact E|]. right. right. apply (will_keep s _ t); [|rewrite P; discriminate|exact E].
      rewrite goto_same. reflexivity.
  - constructor.
    + exact R.
    + intros H u. cbn [b_res goto] in H. destruct (Nat.eq_dec u t) as [->|N]; [rewrite goto_same, H; right; left; reflexivity|rewrite goto_other by exact N; apply F; exact H].
    + intros u l. destruct (Nat.eq_dec u t) as [->|N]; [rewrite goto_same; destruct (b_res s =? -2); discriminate|rewrite goto_other by exact N; apply U].
    + destruct E as [E|[E|E]]; [left; exact E|right; left; exact E|]. right. right. apply (will_keep s _ t); [|rewrite P; discriminate|exact E].
      rewrite goto_same. reflexivity.
  - constructor.
    + right. left. reflexivity.
    + intros H. cbn in H. discriminate.
    + intros u l. destruct (Nat.eq_dec u t) as [->|N].
      * rewrite goto_same. intros H. injection H as <-. exists []. reflexivity.
      * rewrite goto_other by exact N. cbn [b_at store]. apply U.
    + right. destruct (some_bank ns) eqn:S.
      * right. exists t, ns. split; [apply goto_same|exact S].
      * left. cbn [b_res goto store]. unfold goal. rewrite last_bank_none by exact S. reflexivity.
  - assert (NF : b_res s <> -2). { intros H. destruct (F H t) as [Q|[Q|Q]]; rewrite P in Q; discriminate. }
    destruct l as [|b l].
    + constructor.
      * exact R.
      * intros H. contradiction.
      * intros u l. destruct (Nat.eq_dec u t) as [->|N]; [rewrite goto_same; discriminate|rewrite goto_other by exact N; apply U].
      * destruct E as [E|[E|E]]; [left; exact E|right; left; exact E|]. right. right. apply (will_keep s _ t); [|rewrite P; intros l H; injection H as <-; discriminate|exact E].
        rewrite goto_same. reflexivity.
    + assert (SX : suffix (b :: l) ns) by (apply (U t); exact P).
      assert (SL : suffix l ns). { destruct SX as (p & ->). exists (p ++ [b])%list. rewrite <- app_assoc. reflexivity. }
      assert (HB : mcdram b = true -> has_bank ns (b_idx b)).
      { intros M. exists b. split; [destruct SX as (p & ->); apply in_or_app; right; left; reflexivity|]. split; [apply mcdram_sub; exact M|reflexivity]. }
      destruct (mcdram b) eqn:M.
      * constructor.
        -- right. right. cbn [b_res goto store]. apply HB. reflexivity.
        -- cbn [b_res goto store]. intros H. pose proof (numbered_has ns _ NU (HB eq_refl)). lia.
        -- intros u k. destruct (Nat.eq_dec u t) as [->|N]; [rewrite goto_same; intros H; injection H as <-; exact SL|rewrite goto_other by exact N; apply U].
        -- right. destruct (some_bank l) eqn:S.
           ++ right. exists t, l. split; [apply goto_same|exact S].
           ++ left. cbn [b_res goto store]. rewrite (suffix_goal (b :: l) ns SX) by (cbn [some_bank existsb]; rewrite M; reflexivity).
              cbn [last_bank]. rewrite M, last_bank_none by exact S. reflexivity.
      * constructor.
        -- exact R.
        -- intros H. contradiction.
        -- intros u k. destruct (Nat.eq_dec u t) as [->|N]; [rewrite goto_same; intros H; injection H as <-; exact SL|rewrite goto_other by exact N; apply U].
        -- destruct E as [E|[E|E]]; [left; exact E|right; left; exact E|]. right. right. apply (will_keep s _ t); [rewrite goto_same; reflexivity| |exact E].
           rewrite P. intros k H Hk. injection H as <-. exists l. split; [apply goto_same|]. cbn [some_bank existsb] in Hk. rewrite M in Hk. exact Hk.
  - constructor.
    + exact R.
    + intros H. destruct (F H t) as [Q|[Q|Q]]; rewrite P in Q; discriminate.
    + intros u l. destruct (Nat.eq_dec u t) as [->|N]; [rewrite goto_same; discriminate|rewrite goto_other by exact N; apply U].
    + destruct E as [E|[E|E]]; [left; exact E|right; left; exact E|]. right. right. apply (will_keep s _ t); [|rewrite P; discriminate|exact E].
      rewrite goto_same. reflexivity.
Qed.
Lemma bi_reach ns s : numbered ns -> breach ns s -> BI ns s.
Proof.
  intros NU H. induction H as [|s t H IH].
  - constructor.
    + left. reflexivity.
    + intros _ t. right. right. reflexivity.
    + intros t l H. discriminate.
    + left. reflexivity.
  - apply bi_step; assumption.
Qed.

(** *** Answers in any interleaving *)
Lemma bank_answers : forall ns s t v, numbered ns -> breach ns s -> answers ns s t v -> v = -1 \/ has_bank ns v.
Proof.
  intros ns s t v NU H (P & A). pose proof (bi_reach ns s NU H) as [R F U E]. unfold bgo in A. rewrite P, goto_same in A. injection A as <-.
  destruct R as [R|R]; [|exact R]. destruct (F R t) as [Q|[Q|Q]]; rewrite P in Q; discriminate.
Qed.
(** *** A call run alone *)
Lemma play_app ns a b s : bplay ns (a ++ b) s = bplay ns b (bplay ns a s).
Proof. unfold bplay. apply fold_left_app. Qed.
Lemma play_cons ns t l s : bplay ns (t :: l) s = bplay ns l (bgo ns t s).
Proof. reflexivity. Qed.
Lemma play_nil ns s : bplay ns [] s = s.
Proof. reflexivity. Qed.
Lemma scan_alone ns t : forall l s, b_at s t = BScan l ->
  exists s', bplay ns (repeat t (length l)) s = s' /\ b_at s' t = BScan [] /\ b_res s' = last_bank (b_res s) l /\ forall u, u <> t -> b_at s' u = b_at s u.
Proof.
  induction l as [|b l IH]; intros s P.
  - exists s. repeat split; try assumption.
  - cbn [length repeat]. unfold bplay. cbn [fold_left].
    assert (G : bgo ns t s = goto (if mcdram b then store s (b_idx b) else s) t (BScan l)) by (unfold bgo; rewrite P; reflexivity).
    rewrite G. destruct (IH (goto (if mcdram b then store s (b_idx b) else s) t (BScan l)) (goto_same _ _ _)) as (s' & E1 & E2 & E3 & E4).
    exists s'. split; [exact E1|]. split; [exact E2|]. split.
    + rewrite E3. cbn [last_bank]. destruct (mcdram b); reflexivity.
    + intros u N. rewrite E4 by exact N. rewrite goto_other by exact N. destruct (mcdram b); reflexivity.
Qed.
Lemma breach_play ns : forall l s, breach ns s -> breach ns (bplay ns l s).
Proof. induction l as [|t l IH]; intros s H; [exact H|]. unfold bplay. cbn [fold_left]. apply IH. constructor. exact H. Qed.
Lemma quiet_res ns s : numbered ns -> breach ns s -> nobody s -> b_res s = -2 \/ b_res s = goal ns.
Proof.
  intros NU H N. pose proof (bi_reach ns s NU H) as [R F U E]. destruct E as [E|[E|(t & l & E & _)]]; [left; exact E|right; exact E|].
  destruct (N t) as (v & V). rewrite E in V. discriminate.
Qed.
Lemma bank_alone : forall ns s t, numbered ns -> breach ns s -> nobody s ->
  exists n s' v, bplay ns (repeat t n) s = s' /\ b_at s' t = BOut (Some v) /\ right_answer ns v /\ b_res s' = v /\ nobody s'.
Proof.
  intros ns s t NU H N. destruct (N t) as (v0 & P).
  assert (NB : forall s', (exists v, b_at s' t = BOut (Some v)) -> (forall u, u <> t -> b_at s' u = b_at s u) -> nobody s').
  { intros s' (v & V) O u. destruct (Nat.eq_dec u t) as [->|D]; [exists (Some v); exact V|]. rewrite O by exact D. apply N. }
  destruct (quiet_res ns s NU H N) as [R|R].
  - set (s1 := goto s t BTest). set (s2 := goto s1 t BMark). set (s3 := goto (store s2 (-1)) t (BScan ns)).
    assert (G1 : bgo ns t s = s1) by (unfold bgo; rewrite P; reflexivity).
    assert (G2 : bgo ns t s1 = s2). { unfold bgo. unfold s1 at 1. rewrite goto_same. change (b_res s1) with (b_res s). rewrite R. reflexivity. }
    assert (G3 : bgo ns t s2 = s3). { unfold bgo. unfold s2 at 1. rewrite goto_same. reflexivity. }
    destruct (scan_alone ns t ns s3 (goto_same _ _ _)) as (s4 & E1 & E2 & E3 & E4).
    set (s5 := goto s4 t BRet). set (s6 := goto s5 t (BOut (Some (b_res s5)))).
    assert (G5 : bgo ns t s4 = s5) by (unfold bgo; rewrite E2; reflexivity).
    assert (G6 : bgo ns t s5 = s6) by (unfold bgo; unfold s5 at 1; rewrite goto_same; reflexivity).
    exists (3 + length ns + 2)%nat, s6, (b_res s4). split.
    + rewrite !repeat_app, !play_app. cbn [repeat]. rewrite !play_cons, !play_nil, G1, G2, G3, E1, G5. exact G6.
    + split; [apply goto_same|]. split; [|split].
      * rewrite E3. change (b_res s3) with (-1). apply goal_right.
      * reflexivity.
      * apply NB.
        -- exists (b_res s4). apply goto_same.
        -- intros u D. unfold s6, s5. rewrite !goto_other by exact D. rewrite E4 by exact D. unfold s3, s2, s1. rewrite goto_other by exact D. cbn [b_at store].
           rewrite !goto_other by exact D. reflexivity.
  - set (s1 := goto s t BTest). set (s2 := goto s1 t BRet). set (s3 := goto s2 t (BOut (Some (b_res s2)))).
    destruct (Z.eqb_spec (goal ns) (-2)) as [Z2|Z2].
    { exfalso. destruct (goal_right ns) as [G|(G & _)]; [pose proof (numbered_has ns _ NU G); lia|lia]. }
    assert (G1 : bgo ns t s = s1) by (unfold bgo; rewrite P; reflexivity).
    assert (G2 : bgo ns t s1 = s2). { unfold bgo. unfold s1 at 1. rewrite goto_same. change (b_res s1) with (b_res s). rewrite R. destruct (Z.eqb_spec (goal ns) (-2)); [contradiction|reflexivity]. }
    assert (G3 : bgo ns t s2 = s3). { unfold bgo. unfold s2 at 1. rewrite goto_same. reflexivity. }
    exists 3%nat, s3, (b_res s). split.
    + unfold bplay. cbn [repeat fold_left]. rewrite G1, G2. exact G3.
    + split; [apply goto_same|]. split; [rewrite R; apply goal_right|]. split; [reflexivity|]. apply NB.
      * exists (b_res s2). apply goto_same.
      * intros u D. unfold s3, s2, s1. rewrite !goto_other by exact D. reflexivity.
Qed.
(** Once a call has ended with nobody inside, every later answer of anybody is the same right one. *)
Lemma settled_step ns s t : b_res s = goal ns -> goal ns <> -2 -> (forall u, b_at s u = BRet \/ b_at s u = BTest \/ outside (b_at s u)) ->
  b_res (bgo ns t s) = goal ns /\ forall u, b_at (bgo ns t s) u = BRet \/ b_at (bgo ns t s) u = BTest \/ outside (b_at (bgo ns t s) u).
Proof.
  intros R Z2 N. unfold bgo. destruct (N t) as [P|[P|(v & P)]]; rewrite P.
  - split; [exact R|]. intros u. destruct (Nat.eq_dec u t) as [->|D]; [rewrite goto_same; right; right; eexists; reflexivity|rewrite goto_other by exact D; apply N].
  - split; [exact R|]. intros u. destruct (Nat.eq_dec u t) as [->|D]; [|rewrite goto_other by exact D; apply N].
    rewrite goto_same, R. destruct (Z.eqb_spec (goal ns) (-2)); [contradiction|left; reflexivity].
  - split; [exact R|]. intros u. destruct (Nat.eq_dec u t) as [->|D]; [rewrite goto_same; right; left; reflexivity|rewrite goto_other by exact D; apply N].
Qed.
Lemma bank_settled : forall ns s l t v, numbered ns -> breach ns s -> nobody s -> b_res s <> -2 -> answers ns (bplay ns l s) t v -> right_answer ns v.
Proof.
  intros ns s l t v NU H N R (P & A).
  destruct (quiet_res ns s NU H N) as [E|E]; [contradiction|].
  assert (Z2 : goal ns <> -2) by (intros Z2; destruct (goal_right ns) as [G|(G & _)]; [pose proof (numbered_has ns _ NU G); lia|lia]).
  assert (K : b_res (bplay ns l s) = goal ns).
  { assert (N' : forall u, b_at s u = BRet \/ b_at s u = BTest \/ outside (b_at s u)) by (intros u; right; right; apply N).
    clear - E N' Z2. revert s E N'. induction l as [|x l IH]; intros s E N'; [exact E|]. unfold bplay. cbn [fold_left].
    destruct (settled_step ns s x E Z2 N') as (A & B). apply IH; assumption. }
  unfold bgo in A. rewrite P, goto_same in A. injection A as <-. rewrite K. apply goal_right.
Qed.
(** *** Racing calls *)
Lemma neg_wrong ns w : numbered ns -> has_bank ns w -> ~ right_answer ns (-1).
Proof. intros NU W [G|(_ & G)]; [pose proof (numbered_has ns _ NU G); lia|apply (G w W)]. Qed.
Definition first_in (ns : list bank) : bst := bplay ns [0; 0; 0; 1; 1]%nat b0.
Lemma bank_race : forall ns w, numbered ns -> has_bank ns w ->
  exists s, breach ns s /\ answers ns s 1 (-1) /\ ~ right_answer ns (-1).
Proof.
  intros ns w NU W. exists (first_in ns). split; [apply breach_play; constructor|]. split; [|apply (neg_wrong ns w); assumption].
  split; reflexivity.
Qed.
(** Threads 0 and 1 pass the test, 0 does its whole call and has the right answer, 1 stores -1, a third call reads it. *)
Lemma bank_late : forall ns w, numbered ns -> has_bank ns w ->
  exists s s2 v l, breach ns s /\ answers ns s 0 v /\ has_bank ns v /\ s2 = bplay ns l (bgo ns 0 s) /\ b_at (bgo ns 0 s) 2 = BOut None /\ answers ns s2 2 (-1).
Proof.
  intros ns w NU W. set (a := bplay ns [0; 0; 1; 1; 0]%nat b0).
  assert (A : b_at a 0 = BScan ns) by reflexivity.
  destruct (scan_alone ns 0 ns a A) as (s4 & E1 & E2 & E3 & E4). set (s := bgo ns 0 s4).
  assert (S0 : s = goto s4 0 BRet) by (unfold s, bgo; rewrite E2; reflexivity).
  exists s, (bplay ns [1; 2; 2]%nat (bgo ns 0 s)), (b_res s), [1; 2; 2]%nat.
  assert (RS : breach ns s). { unfold s. constructor. rewrite <- E1. apply breach_play. apply breach_play. constructor. }
  assert (O1 : b_at s 1 = BMark) by (rewrite S0, goto_other by lia; rewrite E4 by lia; reflexivity).
  assert (O2 : b_at s 2 = BOut None) by (rewrite S0, goto_other by lia; rewrite E4 by lia; reflexivity).
  assert (G0 : bgo ns 0 s = goto s 0 (BOut (Some (b_res s)))) by (unfold bgo at 1; rewrite S0, goto_same; reflexivity).
  split; [exact RS|]. split; [|split; [|split; [|split]]].
  - split; [rewrite S0; apply goto_same|rewrite G0; apply goto_same].
  - rewrite S0. change (b_res (goto s4 0 BRet)) with (b_res s4). rewrite E3. change (b_res a) with (-1).
    destruct (goal_right ns) as [G|(_ & G)]; [exact G|exfalso; exact (G w W)].
  - reflexivity.
  - rewrite G0, goto_other by lia. exact O2.
  - rewrite G0. set (b := goto s 0 (BOut (Some (b_res s)))).
    assert (B1 : b_at b 1 = BMark) by (unfold b; rewrite goto_other by lia; exact O1).
    assert (B2 : b_at b 2 = BOut None) by (unfold b; rewrite goto_other by lia; exact O2).
    clearbody b. unfold bplay. cbn [fold_left].
    assert (C1 : bgo ns 1 b = goto (store b (-1)) 1 (BScan ns)) by (unfold bgo; rewrite B1; reflexivity). rewrite C1.
    set (c := goto (store b (-1)) 1 (BScan ns)).
    assert (C2 : b_at c 2 = BOut None) by (unfold c; rewrite goto_other by lia; exact B2).
    assert (CR : b_res c = -1) by reflexivity. clearbody c.
    assert (D1 : bgo ns 2 c = goto c 2 BTest) by (unfold bgo; rewrite C2; reflexivity). rewrite D1.
    assert (D2 : bgo ns 2 (goto c 2 BTest) = goto (goto c 2 BTest) 2 BRet).
    { unfold bgo. rewrite goto_same. change (b_res (goto c 2 BTest)) with (b_res c). rewrite CR. reflexivity. }
    rewrite D2. split; [apply goto_same|]. unfold bgo. rewrite goto_same. rewrite goto_same. cbn [b_res goto]. rewrite CR. reflexivity.
Qed.

(** *** The chain used *)
Lemma hbw_right : forall h ns v, has_nodes h = true -> numbered ns -> (0 < length ns <= 128)%nat -> v = -1 \/ has_bank ns v ->
  hbw_chain h (Z.of_nat (length ns)) true v = Ok (Some (if v =? -1 then 0 else v)) /\ hbw_chain h (Z.of_nat (length ns)) false v = Ok (Some 0).
Proof.
  intros h ns v HN NU L V.
  assert (K : forall k, 0 <= k < Z.of_nat (length ns) -> on_node_chain h (Z.of_nat (length ns)) k = Ok (Some k)).
  { intros k B. unfold on_node_chain, on_node_entry, on_node_init. rewrite HN. destruct (Z.leb_spec 0 k); [|lia]. destruct (Z.ltb_spec k 128); [|lia].
    destruct (Z.ltb_spec k 0); [lia|]. destruct (Z.leb_spec 128 k); [lia|]. destruct (Z.ltb_spec k (Z.of_nat (length ns))); [|lia]. reflexivity. }
  unfold hbw_chain, hbw_node. cbv zeta. split.
  - destruct (Z.eqb_spec v (-1)) as [E|N]; [apply K; lia|]. destruct V as [V|V]; [contradiction|]. apply K. apply numbered_has; assumption.
  - apply K. lia.
Qed.
(** *** The node of a processing unit *)
Lemma up_ok : forall l, walk_up l = UB \/ exists i a l1 l2, walk_up l = Ok i /\ l = (l1 ++ a :: l2)%list /\ a_idx a = i /\ a_mem a <> [] /\ Forall (fun x => a_mem x = []) l1.
Proof.
  induction l as [|a l IH]; [left; reflexivity|]. cbn [walk_up]. destruct (a_mem a) as [|m ms] eqn:M.
  - destruct IH as [IH|(i & b & l1 & l2 & I1 & I2 & I3 & I4 & I5)]; [left; exact IH|]. right. exists i, b, (a :: l1), l2. split; [exact I1|]. split; [rewrite I2; reflexivity|].
    split; [exact I3|]. split; [exact I4|]. constructor; assumption.
  - right. exists (a_idx a), a, [], l. split; [reflexivity|]. split; [reflexivity|]. split; [reflexivity|]. split; [rewrite M; discriminate|constructor].
Qed.
Lemma near_app : forall l1 a l2 n, Forall (fun x => a_mem x = []) l1 -> a_mem a <> [] -> near (l1 ++ a :: l2) n <-> In n (a_mem a).
Proof.
  intros l1 a l2 n F NE. induction F as [|x l1 E F IH]; cbn [app].
  - split; [|apply near_here]. intros H. inversion H; subst; [assumption|]. contradiction.
  - split.
    + intros H. inversion H; subst; [match goal with X : In _ (a_mem x) |- _ => rewrite E in X; destruct X end|]. apply IH. assumption.
    + intros H. apply near_up; [exact E|]. apply IH. exact H.
Qed.
(** The answer is a near node exactly when the object that has the memory has the number of one of its nodes. *)
Lemma cpu_node : forall l1 a l2, Forall (fun x => a_mem x = []) l1 -> a_mem a <> [] ->
  from_cpu true (Some (l1 ++ a :: l2)) = Ok (a_idx a) /\ (near (l1 ++ a :: l2) (a_idx a) <-> In (a_idx a) (a_mem a)).
Proof.
  intros l1 a l2 F NE. split; [|apply near_app; assumption]. cbn [from_cpu]. induction F as [|x l1 E F IH]; cbn [app walk_up].
  - destruct (a_mem a); [contradiction|reflexivity].
  - rewrite E. exact IH.
Qed.
Lemma cpu_far : forall l i, from_cpu true (Some l) = Ok i -> (exists n, near l n) /\ ((forall a, In a l -> a_mem a <> [] -> ~ In (a_idx a) (a_mem a)) -> ~ near l i).
Proof.
  intros l i H. cbn [from_cpu] in H. destruct (up_ok l) as [U|(j & a & l1 & l2 & I1 & I2 & I3 & I4 & I5)]; [rewrite U in H; discriminate|].
  rewrite I1 in H. injection H as <-. split.
  - destruct (a_mem a) as [|m ms] eqn:M; [contradiction|]. exists m. rewrite I2. apply near_app; [exact I5|rewrite M; discriminate|]. rewrite M. left. reflexivity.
  - intros K N. rewrite I2 in N. apply near_app in N; [|exact I5|exact I4]. rewrite <- I3 in N. apply (K a); [rewrite I2; apply in_or_app; right; left; reflexivity|exact I4|exact N].
Qed.
Lemma cpu_none : forall pu, (pu = None \/ exists l, pu = Some l /\ Forall (fun x => a_mem x = []) l) -> from_cpu true pu = UB.
Proof.
  intros pu [->|(l & -> & F)]; [reflexivity|]. cbn [from_cpu]. induction F as [|x l E F IH]; [reflexivity|]. cbn [walk_up]. rewrite E. exact IH.
Qed.
