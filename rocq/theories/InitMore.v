(** Start-up: theorems behind C55, progress and counterexamples. *)
From Verif Require Import Res InitModel InitSpec InitProofs.
From Coq Require Import List Bool Arith Lia FinFun.
Import ListNotations.

(** Case analysis on the first condition of the goal. *)
Ltac dif := match goal with |- context [if ?b then _ else _] => destruct b end.

Lemma J_0 m : J m ist0 0.
Proof.
  constructor; cbn [ist0 gstate glog glock at_]; try discriminate; try reflexivity; try lia; auto.
  - intros t. cbn. split; [discriminate|tauto].
  - cbn. tauto.
  - intros t f [H|H]; discriminate.
Qed.
Lemma ireach_J m s : mach_ok m -> ireach m s -> exists n, J m s n.
Proof.
  intros OK H. induction H as [|s a s' H (n & I) V E]; [exists 0; apply J_0|]. destruct (J_step m s n a OK V I) as [(s1 & n' & E1 & I' & _)|(E1 & _)]; [|congruence].
  exists n'. congruence.
Qed.
Lemma iruns_ireach m s l s' : ireach m s -> iruns m s l s' -> ireach m s'.
Proof. intros H R. induction R as [|s a s1 l s2 V E R IH]; [exact H|]. apply IH. exact (ireach_s _ _ _ _ H V E). Qed.
Lemma iruns_app m s l s1 l' s2 : iruns m s l s1 -> iruns m s1 l' s2 -> iruns m s (l ++ l') s2.
Proof. intros H K. induction H as [|s a sa l sb V E R IH]; [exact K|]. cbn [app]. exact (iruns_s _ _ _ _ _ _ V E (IH K)). Qed.

(** ** What was done, in order, once. *)
Lemma nodup_all m : mach_ok m -> NoDup (all_done m).
Proof.
  intros OK. unfold all_done, basics. destruct (hw m).
  - set (l := map Source (seq 0 (Nat.max 1 (nodes m)))).
    assert (NL : NoDup l) by (apply Injective_map_NoDup; [intros a b H; congruence|apply seq_NoDup]).
    assert (LI : forall d, In d l -> exists i, d = Source i /\ i < 128).
    { intros d H. apply in_map_iff in H as (i & <- & H). apply in_seq in H. exists i. split; [reflexivity|]. unfold mach_ok in OK.
      destruct (Nat.max_spec 1 (nodes m)) as [(_ & Q)|(_ & Q)]; lia. }
    assert (NO : forall d, (forall i, d = Source i -> 128 <= i) -> ~ In d l) by (intros d H K; destruct (LI d K) as (i & -> & L); specialize (H i eq_refl); lia).
    cbn [app]. repeat (apply NoDup_cons; [cbn [In app]; rewrite ?in_app_iff; cbn [In]|]); try (intros H; repeat (destruct H as [H|H]; try discriminate H); revert H; apply NO; intros i H; injection H as <-; lia);
      try (intros H; repeat (destruct H as [H|H]; try discriminate H); first [contradiction|revert H; apply NO; intros i H; discriminate H]).
    { intros [H|[H|[H|[H|[]]]]]; try discriminate H. revert H. apply NO. intros i H. injection H as <-. lia. }
    apply NoDup_rev in NL. rewrite <- (rev_involutive (l ++ [OnNode])), rev_app_distr. apply NoDup_rev. cbn [rev app]. apply NoDup_cons; [|exact NL]. rewrite <- in_rev. apply NO. discriminate.
  - cbn [app]. repeat (apply NoDup_cons; [cbn; intuition discriminate|]). apply NoDup_nil.
Qed.
Lemma done_prefix m s : mach_ok m -> ireach m s -> NoDup (all_done m) /\ exists e, all_done m = glog s ++ e.
Proof.
  intros OK H. split; [exact (nodup_all m OK)|]. destruct (ireach_J m s OK H) as (n & I). destruct (after_ok m n OK) as (v & d & E & e & E2). rewrite (j_run _ _ _ I) in E. injection E as _ <-. exists e. exact E2.
Qed.
Lemma istep_grows m s a s' : istep m a s = Ok s' -> exists e, glog s' = glog s ++ e.
Proof.
  assert (Z : forall s', glog s' = glog s -> exists e, glog s' = glog s ++ e) by (intros s1 ->; exists []; symmetry; apply app_nil_r).
  intros H. destruct a as [t|t|t o r]; cbn [istep] in H.
  - destruct (at_ s t); injection H as <-; apply Z; reflexivity.
  - destruct (at_ s t); injection H as <-; apply Z; reflexivity.
  - destruct (at_ s t) as [| | | |k| | |f|f|p|id].
    + injection H as <-. apply Z. reflexivity.
    + injection H as <-. apply Z. reflexivity.
    + destruct (glock s); injection H as <-; apply Z; reflexivity.
    + injection H as <-. apply Z. reflexivity.
    + destruct (nth_error (section m) k) as [i|]; [|injection H as <-; apply Z; reflexivity]. rewrite one_instr_p in H. destruct (pstep m i (gstate s, glog s)) as [x| | |] eqn:E; cbn [rbind] in H; try discriminate. injection H as <-. destruct (pstep_grows _ _ _ _ E) as (e & G). exists e. exact G.
    + injection H as <-. apply Z. reflexivity.
    + destruct (was_done s EggChain); [injection H as <-; apply Z; reflexivity|discriminate].
    + injection H as <-. apply Z. reflexivity.
    + injection H as <-. apply Z. reflexivity.
    + destruct (hw m && robin m && Nat.eqb (nodes m) 0); [discriminate|]. cbv zeta in H. destruct (_ <=? max_node m); [|discriminate]. destruct (was_done s _); [injection H as <-; apply Z; reflexivity|discriminate].
    + injection H as <-. apply Z. reflexivity.
Qed.
Lemma done_stays m s l s' : iruns m s l s' -> exists e, glog s' = glog s ++ e.
Proof.
  intros R. induction R as [s|s a s1 l s2 V E R (e2 & IH)]; [exists []; symmetry; apply app_nil_r|]. destruct (istep_grows _ _ _ _ E) as (e1 & E1). exists (e1 ++ e2). rewrite IH, E1, app_assoc. reflexivity.
Qed.
Lemma started_ready m s t : mach_ok m -> ireach m s -> started (at_ s t) -> 2 <= gstate s /\ (forall d, In d (basics m) -> In d (glog s)).
Proof. intros OK H ST. destruct (ireach_J m s OK H) as (n & I). pose proof (j_start _ _ _ I t ST) as V. split; [exact V|]. intros d. exact (basics_in m d s n OK I V). Qed.
Lemma one_inside m s t u : mach_ok m -> ireach m s -> inside_init (at_ s t) -> inside_init (at_ s u) -> t = u.
Proof. intros OK H A B. destruct (ireach_J m s OK H) as (n & I). apply (j_lock _ _ _ I) in A. apply (j_lock _ _ _ I) in B. congruence. Qed.
Lemma got_source m s t id : mach_ok m -> ireach m s -> at_ s t = Got id -> In (Source id) (glog s).
Proof. intros OK H A. destruct (ireach_J m s OK H) as (n & I). exact (j_got _ _ _ I t id A). Qed.
Lemma no_fault m s a : mach_ok m -> ireach m s -> iact_ok m a -> hw m = false \/ robin m = false \/ (gstate s = 3 /\ nodes m <> 0) -> exists s', istep m a s = Ok s'.
Proof. intros OK H V S. destruct (ireach_J m s OK H) as (n & I). destruct (J_step m s n a OK V I) as [(s1 & n' & E1 & I' & _)|(E1 & B & _)]; [eauto|contradiction]. Qed.
(** Faults are only those of the round robin. *)
Lemma only_robin m s a : mach_ok m -> ireach m s -> iact_ok m a -> istep m a s <> Abort /\ istep m a s <> OutOfFuel.
Proof. intros OK H V. destruct (ireach_J m s OK H) as (n & I). destruct (J_step m s n a OK V I) as [(s1 & n' & E1 & I' & _)|(E1 & B & _)]; rewrite E1; split; discriminate. Qed.
Lemma done_3 m s : mach_ok m -> ireach m s -> gstate s = 3 -> glog s = all_done m.
Proof. intros OK H G. destruct (ireach_J m s OK H) as (n & I). pose proof (j_run _ _ _ I) as R. rewrite G in R. exact (proj1 (after_3 m n _ OK R)). Qed.

(** ** Without the two NUMA options the source is the default one. *)
Definition def_id (m : machine) : nat := if hw m then 128 else 0.
Definition K (m : machine) (s : ist) : Prop := forall t, (forall p, at_ s t = Pick p -> p = Some (def_id m)) /\ (forall id, at_ s t = Got id -> id = def_id m).
Lemma K_move m s t p : K m s -> (forall q, p = Pick q -> q = Some (def_id m)) -> (forall id, p = Got id -> id = def_id m) -> K m (move s t p).
Proof.
  intros H A B x. destruct (Nat.eq_dec x t) as [->|N]; [rewrite move_same; auto|rewrite move_other by exact N; exact (H x)].
Qed.
Lemma default_source m s : mach_ok m -> numa m = false -> robin m = false -> ireach m s -> K m s.
Proof.
  intros OK N R H. induction H as [|s a s' H IH V E]; [intros t; cbn; split; discriminate|]. destruct (ireach_J m s OK H) as (n & I).
  assert (DI : hw m = true -> max_node m = def_id m) by (intros HW; unfold max_node, def_id; rewrite HW; reflexivity).
  assert (D0 : hw m = false -> 0 = def_id m) by (intros HW; unfold def_id; rewrite HW; reflexivity).
  destruct a as [t|t|t o r]; cbn [istep] in E.
  - destruct (at_ s t); injection E as <-; try exact IH. apply K_move; [exact IH|discriminate|discriminate].
  - destruct (at_ s t); injection E as <-; try exact IH. apply K_move; [exact IH| |]; destruct (hw m); try discriminate. intros q Q. injection Q as <-. f_equal. auto.
  - destruct (at_ s t) as [| | | |k| | |f|f|p|id] eqn:A.
    + injection E as <-. exact IH.
    + injection E as <-. apply K_move; [exact IH| |]; dif; discriminate.
    + destruct (glock s); injection E as <-; [exact IH|]. exact (K_move m s t Check IH ltac:(discriminate) ltac:(discriminate)).
    + injection E as <-. apply K_move; [exact IH| |]; dif; discriminate.
    + destruct (nth_error (section m) k) as [i|]; [|injection E as <-; apply K_move; [exact IH|discriminate|discriminate]]. rewrite one_instr_p in E. destruct (pstep m i (gstate s, glog s)) as [x| | |]; cbn [rbind] in E; try discriminate. injection E as <-.
      exact (K_move m s t (In_ (S k)) IH ltac:(discriminate) ltac:(discriminate)).
    + injection E as <-. exact (K_move m s t Chain IH ltac:(discriminate) ltac:(discriminate)).
    + destruct (was_done s EggChain); [injection E as <-|discriminate]. apply K_move; [exact IH| |]; destruct (hw m); try discriminate. intros q Q. injection Q as <-. f_equal. auto.
    + injection E as <-. pose proof (j_st _ _ _ I t f (or_introl A)) as HW. apply K_move; [exact IH| |]; dif; try discriminate. intros q Q. injection Q as <-. f_equal. auto.
    + injection E as <-. pose proof (j_st _ _ _ I t f (or_intror A)) as HW. rewrite N, andb_false_r. cbn [andb]. apply K_move; [exact IH| |]; dif; try discriminate; intros q Q; injection Q as <-; f_equal; auto.
    + rewrite R, andb_false_r in E. cbn [andb] in E. cbv zeta in E. rewrite (proj1 (IH t) p A) in E. destruct (_ <=? max_node m); [|discriminate]. destruct (was_done s _); [injection E as <-|discriminate].
      apply K_move; [exact IH|discriminate|]. intros id Q. injection Q as <-. reflexivity.
    + injection E as <-. exact IH.
Qed.

(** ** Progress: a thread that has begun can be brought to its source. *)
Definition rank (m : machine) (p : place) : nat :=
  let L := length (section m) in
  match p with
  | Out | Got _ => 0 | Pick _ => 1 | St2 _ => 2 | St1 _ => 3 | Chain => 4 | Unlock => 5
  | In_ k => 6 + (L - k) | Check => 7 + L | Lock => 8 + L | Fast => 9 + L
  end.
Definition go (t : nat) : iact := Go t None 0.
Lemma go_ok m t : iact_ok m (go t).
Proof. cbn. split; [discriminate|lia]. Qed.
Definition blocked (s : ist) (t : nat) : Prop := at_ s t = Lock /\ glock s <> None.
Lemma go_down m s t s' : istep m (go t) s = Ok s' -> ~ blocked s t -> 0 < rank m (at_ s t) ->
  rank m (at_ s' t) < rank m (at_ s t) /\ (forall x, x <> t -> at_ s' x = at_ s x) /\ (inside_init (at_ s t) -> inside_init (at_ s' t) \/ started (at_ s' t)).
Proof.
  intros E NB RK. unfold go in E. cbn [istep] in E.
  assert (MV : forall s1 p, (forall x, at_ s1 x = at_ (move s t p) x) -> rank m p < rank m (at_ s t) -> (inside_init (at_ s t) -> inside_init p \/ started p) ->
    rank m (at_ s1 t) < rank m (at_ s t) /\ (forall x, x <> t -> at_ s1 x = at_ s x) /\ (inside_init (at_ s t) -> inside_init (at_ s1 t) \/ started (at_ s1 t))).
  { intros s1 p X L Q. rewrite (X t), move_same. split; [exact L|]. split; [|exact Q]. intros x N. rewrite (X x). exact (move_other s t p x N). }
  destruct (at_ s t) as [| | | |k| | |f|f|p|id] eqn:A; cbn [rank] in RK; try lia.
  - injection E as <-. apply (MV _ (if 2 <=? gstate s then Chain else Lock)); [reflexivity| |cbn; tauto]. destruct (2 <=? gstate s); cbn [rank]; lia.
  - destruct (glock s) as [h|] eqn:GL; [exfalso; apply NB; split; [exact A|congruence]|]. injection E as <-. apply (MV _ Check); [reflexivity|cbn [rank]; lia|cbn; tauto].
  - injection E as <-. apply (MV _ (if Nat.eqb (gstate s) 0 then In_ 0 else Unlock)); [reflexivity| |destruct (Nat.eqb (gstate s) 0); cbn; tauto]. destruct (Nat.eqb (gstate s) 0); cbn [rank]; lia.
  - destruct (nth_error (section m) k) as [i|] eqn:EN.
    + assert (L : k < length (section m)) by (apply nth_error_Some; congruence). rewrite one_instr_p in E. destruct (pstep m i (gstate s, glog s)) as [x| | |]; cbn [rbind] in E; try discriminate. injection E as <-.
      apply (MV _ (In_ (S k))); [reflexivity|cbn [rank]; lia|cbn; tauto].
    + injection E as <-. apply (MV _ Unlock); [reflexivity|cbn [rank]; lia|cbn; tauto].
  - injection E as <-. apply (MV _ Chain); [reflexivity|cbn [rank]; lia|cbn; tauto].
  - destruct (was_done s EggChain); [injection E as <-|discriminate]. apply (MV _ (if hw m then St1 true else Pick (Some 0))); [reflexivity| |cbn; tauto]. destruct (hw m); cbn [rank]; lia.
  - injection E as <-. apply (MV _ (if Nat.eqb (gstate s) 1 then Pick (Some (max_node m)) else St2 f)); [reflexivity| |cbn; tauto]. destruct (Nat.eqb (gstate s) 1); cbn [rank]; lia.
  - injection E as <-. set (p := if Nat.eqb (gstate s) 2 then _ else _). apply (MV _ p); [reflexivity| |cbn; tauto]. subst p. destruct (Nat.eqb (gstate s) 2); [cbn [rank]; lia|]. destruct (_ && negb f); cbn [rank]; lia.
  - destruct (hw m && robin m && Nat.eqb (nodes m) 0); [discriminate|]. cbv zeta in E. destruct (_ <=? max_node m); [|discriminate]. destruct (was_done s _); [|discriminate]. injection E as <-. eapply MV; [reflexivity|cbn [rank]; lia|cbn; tauto].
Qed.
Lemma rank_0 m p : rank m p = 0 -> p = Out \/ exists id, p = Got id.
Proof. destruct p; cbn [rank]; intros H; try lia; eauto. Qed.
(** The holder of the lock can leave. *)
Lemma leave m : mach_ok m -> (hw m = false \/ robin m = false) -> forall k s t, rank m (at_ s t) <= k -> ireach m s -> inside_init (at_ s t) ->
  exists l s', iruns m s l s' /\ ~ inside_init (at_ s' t) /\ forall x, x <> t -> at_ s' x = at_ s x.
Proof.
  intros OK SAFE. induction k as [|k IH]; intros s t L H IN; [destruct (at_ s t); cbn in IN, L; try contradiction; lia|].
  destruct (no_fault m s (go t) OK H (go_ok m t)) as (s1 & E); [tauto|]. destruct (go_down m s t s1 E) as (D & X & Y).
  - intros (Z & _). rewrite Z in IN. exact IN.
  - destruct (at_ s t); cbn in IN; try contradiction; cbn [rank]; lia.
  - destruct (Y IN) as [Y1|Y1].
    + destruct (IH s1 t ltac:(lia) (ireach_s _ _ _ _ H (go_ok m t) E) Y1) as (l & s2 & R & N & Q). exists (go t :: l), s2. split; [exact (iruns_s _ _ _ _ _ _ (go_ok m t) E R)|]. split; [exact N|]. intros x Nx. rewrite (Q x Nx). exact (X x Nx).
    + exists [go t], s1. split; [exact (iruns_s _ _ _ _ _ _ (go_ok m t) E (iruns_0 _ _))|]. split; [|exact X]. destruct (at_ s1 t); cbn in Y1 |- *; tauto.
Qed.
Lemma progress_k m : mach_ok m -> (hw m = false \/ robin m = false) -> forall k s t, rank m (at_ s t) <= k -> ireach m s -> at_ s t <> Out ->
  exists l s' id, iruns m s l s' /\ at_ s' t = Got id.
Proof.
  intros OK SAFE. induction k as [|k IH]; intros s t L H NO.
  - destruct (rank_0 m (at_ s t)) as [Z|(id & Z)]; [lia|contradiction|]. exists [], s, id. split; [apply iruns_0|exact Z].
  - destruct (Nat.eq_dec (rank m (at_ s t)) 0) as [R0|R0]; [destruct (rank_0 m (at_ s t) R0) as [Z|(id & Z)]; [contradiction|]; exists [], s, id; split; [apply iruns_0|exact Z]|].
    assert (FREE : exists l s1, iruns m s l s1 /\ at_ s1 t = at_ s t /\ ~ blocked s1 t).
    { destruct (ireach_J m s OK H) as (n & I). destruct (glock s) as [h|] eqn:GL; [|exists [], s; split; [apply iruns_0|]; split; [reflexivity|intros (_ & Z); congruence]].
      destruct (Nat.eq_dec h t) as [->|NH]; [exists [], s; split; [apply iruns_0|]; split; [reflexivity|]; intros (Z & _); apply (j_lock _ _ _ I) in GL; rewrite Z in GL; exact GL|].
      pose proof (proj1 (j_lock _ _ _ I h) GL) as IN. destruct (leave m OK SAFE _ s h (le_n _) H IN) as (l & s1 & R & N & X). exists l, s1. split; [exact R|]. split; [apply X; congruence|].
      intros (Z1 & Z2). destruct (ireach_J m s1 OK (iruns_ireach _ _ _ _ H R)) as (n1 & I1). destruct (glock s1) as [h1|] eqn:G1; [|congruence]. apply (j_lock _ _ _ I1) in G1.
      destruct (Nat.eq_dec h1 h) as [->|N1]; [contradiction|]. rewrite (X h1 N1) in G1. exact (alone m s n h h1 I IN N1 G1). }
    destruct FREE as (l & s1 & R & A1 & NB). pose proof (iruns_ireach _ _ _ _ H R) as H1. destruct (no_fault m s1 (go t) OK H1 (go_ok m t)) as (s2 & E); [tauto|].
    assert (RP : 0 < rank m (at_ s1 t)) by (rewrite A1; lia). destruct (go_down m s1 t s2 E NB RP) as (D & _ & _). rewrite A1 in D.
    destruct (Nat.eq_dec (rank m (at_ s2 t)) 0) as [R2|R2].
    + destruct (rank_0 m (at_ s2 t) R2) as [Z|(id & Z)]; [|exists (l ++ [go t]), s2, id; split; [exact (iruns_app _ _ _ _ _ _ R (iruns_s _ _ _ _ _ _ (go_ok m t) E (iruns_0 _ _)))|exact Z]].
      exfalso. unfold go in E. cbn [istep] in E. assert (MO : forall s3 p, (forall x, at_ s3 x = at_ (move s1 t p) x) -> Ok s3 = Ok s2 -> p <> Out -> False) by (intros s3 p X Q NP; injection Q as <-; rewrite (X t), move_same in Z; contradiction).
      destruct (at_ s1 t) as [| | | |j| | |f|f|p|id] eqn:A; cbn [rank] in RP; try lia.
      * apply (MO _ (if 2 <=? gstate s1 then Chain else Lock)) in E; [exact E|reflexivity|destruct (2 <=? gstate s1); discriminate].
      * destruct (glock s1) eqn:GL; [apply NB; split; [exact A|congruence]|]. apply (MO _ Check) in E; [exact E|reflexivity|discriminate].
      * apply (MO _ (if Nat.eqb (gstate s1) 0 then In_ 0 else Unlock)) in E; [exact E|reflexivity|destruct (Nat.eqb (gstate s1) 0); discriminate].
      * destruct (nth_error (section m) j); [rewrite one_instr_p in E; destruct (pstep m i (gstate s1, glog s1)); cbn [rbind] in E; try discriminate; apply (MO _ (In_ (S j))) in E; [exact E|reflexivity|discriminate]|].
        apply (MO _ Unlock) in E; [exact E|reflexivity|discriminate].
      * apply (MO _ Chain) in E; [exact E|reflexivity|discriminate].
      * destruct (was_done s1 EggChain); [|discriminate]. apply (MO _ (if hw m then St1 true else Pick (Some 0))) in E; [exact E|reflexivity|destruct (hw m); discriminate].
      * apply (MO _ (if Nat.eqb (gstate s1) 1 then Pick (Some (max_node m)) else St2 f)) in E; [exact E|reflexivity|destruct (Nat.eqb (gstate s1) 1); discriminate].
      * set (p := if Nat.eqb (gstate s1) 2 then _ else _) in E. apply (MO _ p) in E; [exact E|reflexivity|]. subst p. destruct (Nat.eqb (gstate s1) 2); [discriminate|]. destruct (_ && negb f); discriminate.
      * destruct (hw m && robin m && Nat.eqb (nodes m) 0); [discriminate|]. cbv zeta in E. destruct (_ <=? max_node m); [|discriminate]. destruct (was_done s1 _); [|discriminate]. eapply MO in E; [exact E|reflexivity|discriminate].
    + destruct (IH s2 t ltac:(lia) (ireach_s _ _ _ _ H1 (go_ok m t) E)) as (l2 & s3 & id & R3 & Z); [intros Z; rewrite Z in R2; exact (R2 eq_refl)|].
      exists (l ++ go t :: l2), s3, id. split; [|exact Z]. exact (iruns_app _ _ _ _ _ _ R (iruns_s _ _ _ _ _ _ (go_ok m t) E R3)).
Qed.
Lemma progress m s t : mach_ok m -> (hw m = false \/ robin m = false) -> ireach m s -> at_ s t <> Out -> exists l s' id, iruns m s l s' /\ at_ s' t = Got id.
Proof. intros OK SAFE H NO. exact (progress_k m OK SAFE _ s t (le_n _) H NO). Qed.

(** ** The round robin during the start-up *)
Definition early : list iact := Begin 0 :: repeat (Go 0 None 0) 12 ++ Begin 1 :: repeat (Go 1 None 0) 4.
Lemma run_lst m (l : list iact) : forall s, (forall a, In a l -> iact_ok m a) -> forall s', fold_left (fun x a => rbind x (istep m a)) l (Ok s) = Ok s' -> iruns m s l s'.
Proof.
  induction l as [|a l IH]; intros s V s' H; cbn [fold_left] in H; [injection H as <-; apply iruns_0|]. cbn [rbind] in H. destruct (istep m a s) as [s1| | |] eqn:E.
  - exact (iruns_s _ _ _ _ _ _ (V a (or_introl eq_refl)) E (IH s1 (fun b K => V b (or_intror K)) s' H)).
  - exfalso. clear - H. assert (Q : forall l, fold_left (fun x a => rbind x (istep m a)) l UB = UB) by (induction l0; cbn; auto). rewrite Q in H. discriminate.
  - exfalso. clear - H. assert (Q : forall l, fold_left (fun x a => rbind x (istep m a)) l Abort = Abort) by (induction l0; cbn; auto). rewrite Q in H. discriminate.
  - exfalso. clear - H. assert (Q : forall l, fold_left (fun x a => rbind x (istep m a)) l OutOfFuel = OutOfFuel) by (induction l0; cbn; auto). rewrite Q in H. discriminate.
Qed.
Lemma robin_early n b r : 0 < n <= 128 -> r < n -> exists s, ireach (mkMach true n b true) s /\ iact_ok (mkMach true n b true) (Go 1 None r) /\ istep (mkMach true n b true) (Go 1 None r) s = UB.
Proof.
  intros N R. set (m := mkMach true n b true). assert (V : forall a, In a early -> iact_ok m a).
  { intros a H. assert (G : forall t, iact_ok m (Go t None 0)) by (intros t; cbn; split; [discriminate|lia]). unfold early in H. destruct H as [<-|H]; [exact Logic.I|]. apply in_app_iff in H as [H|[<-|H]]; [apply repeat_spec in H as ->; apply G|exact Logic.I|apply repeat_spec in H as ->; apply G]. }
  assert (E : exists s, fold_left (fun x a => rbind x (istep m a)) early (Ok ist0) = Ok s /\ at_ s 1 = Pick (Some 128) /\ glog s = [ConfigDefaults; EggChain; Topology; Source 128; ConfigUser; EggSource]).
  { eexists. split; [|split]; [vm_compute; reflexivity|reflexivity|reflexivity]. }
  destruct E as (s & E & A & G). exists s. split; [exact (iruns_ireach m _ _ _ (ireach_0 m) (run_lst m early ist0 V s E))|]. split; [cbn; split; [discriminate|right; exact R]|].
  cbn [istep]. rewrite A. unfold m at 1 2 3. cbn [hw robin nodes andb]. destruct (Nat.eqb_spec n 0) as [Z|_]; [lia|]. cbn [hw robin andb m]. unfold max_node. cbn [hw m]. destruct (Nat.leb_spec r 128) as [_|Z]; [|lia].
  unfold was_done. rewrite G. cbn [existsb doing_eqb]. destruct (Nat.eqb_spec r 128) as [Z|_]; [lia|]. reflexivity.
Qed.
Lemma robin_0 m s t id : hw m = true -> robin m = true -> nodes m = 0 -> ireach m s -> at_ s t <> Got id.
Proof.
  intros HW RB N0 H. revert t id. induction H as [|s a s' H IH V E]; intros t id; [discriminate|]. intros A.
  assert (MV : forall u p, (forall i, p <> Got i) -> at_ (move s u p) t <> Got id) by (intros u p NP; destruct (Nat.eq_dec t u) as [->|N]; [rewrite move_same; apply NP|rewrite move_other by exact N; apply IH]).
  destruct a as [u|u|u o r]; cbn [istep] in E.
  - destruct (at_ s u); injection E as <-; try exact (IH t id A). revert A. apply MV. discriminate.
  - destruct (at_ s u); injection E as <-; try exact (IH t id A). revert A. apply MV. rewrite HW. discriminate.
  - destruct (at_ s u) as [| | | |k| | |f|f|p|i].
    + injection E as <-. exact (IH t id A).
    + injection E as <-. revert A. apply MV. dif; discriminate.
    + destruct (glock s); injection E as <-; [exact (IH t id A)|]. revert A. apply (MV u Check). discriminate.
    + injection E as <-. revert A. apply MV. dif; discriminate.
    + destruct (nth_error (section m) k) as [i|]; [|injection E as <-; revert A; apply MV; discriminate]. rewrite one_instr_p in E. destruct (pstep m i (gstate s, glog s)); cbn [rbind] in E; try discriminate. injection E as <-. revert A. apply (MV u (In_ (S k))). discriminate.
    + injection E as <-. revert A. apply (MV u Chain). discriminate.
    + destruct (was_done s EggChain); [injection E as <-|discriminate]. revert A. apply MV. rewrite HW. discriminate.
    + injection E as <-. revert A. apply MV. dif; discriminate.
    + injection E as <-. revert A. apply MV. dif; [discriminate|]. dif; discriminate.
    + rewrite HW, RB, N0 in E. discriminate.
    + injection E as <-. exact (IH t id A).
Qed.
