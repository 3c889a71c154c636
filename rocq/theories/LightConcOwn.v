(** Who has each segment: proofs. *)
From Verif Require Import Word Res LightModel LightConcModel LightConcSpec LightConcProofs.
From Coq Require Import ZArith List Bool Lia.
Import ListNotations.
Open Scope Z_scope.

Record OI (s : lcst) : Prop := mkOI {
  oi_pos : forall x, In x (maps s) -> 0 < snd x;
  oi_apart : forall x y, In x (maps s) -> In y (maps s) -> x <> y -> apart x y;
  oi_maps : NoDup (maps s);
  oi_in : forall w x, has s w x -> In x (maps s);
  oi_one : forall w w' x, has s w x -> has s w' x -> w = w';
  oi_all : forall x, In x (maps s) -> exists w, has s w x;
  oi_held : NoDup (map fst (held s));
  oi_cache : forall j, NoDup (cq (srcs s j));
  oi_ask : forall t j n, cat_ s t = PLock j n \/ cat_ s t = PFind j n \/ cat_ s t = PMap j n \/ cat_ s t = PUnl j n None -> 0 < n }.
Lemma has_0 w x : ~ has lc0 w x.
Proof. destruct w; cbn; intros H; (contradiction || discriminate). Qed.
Lemma OI_0 : OI lc0.
Proof.
  split.
  - intros x I. contradiction I.
  - intros x y I. contradiction I.
  - constructor.
  - intros w x H. contradiction (has_0 w x H).
  - intros w w' x H. contradiction (has_0 w x H).
  - intros x I. contradiction I.
  - constructor.
  - intros j. constructor.
  - intros t j n [H|[H|[H|H]]]; discriminate.
Qed.
(** What the thread may ask for, step by step. *)
Definition asks (p : cplace) : Prop := match p with PLock _ n | PFind _ n | PMap _ n | PUnl _ n None => 0 < n | _ => True end.
Lemma ask_upd s t p : OI s -> asks p -> forall u j n, place_of s t p u = PLock j n \/ place_of s t p u = PFind j n \/ place_of s t p u = PMap j n \/ place_of s t p u = PUnl j n None -> 0 < n.
Proof.
  intros O A u j n. destruct (Nat.eq_dec u t) as [->|Nu].
  - rewrite place_same. intros [->|[->|[->| ->]]]; exact A.
  - rewrite place_other by exact Nu. apply (oi_ask _ O).
Qed.
Lemma ask_at s t : OI s -> asks (cat_ s t).
Proof. intros O. destruct (cat_ s t) as [|j n|j n|j x|j x|j n r|j n|j x|j x|j x|j x|j x|j|j x|j|j|j] eqn:E; cbn; try exact Logic.I; try (destruct r; [exact Logic.I|]); apply (oi_ask _ O t j n); rewrite E; tauto. Qed.

(** Nothing moves. *)
Lemma OI_same s s' t p : OI s -> maps s' = maps s -> held s' = held s -> (forall j, cq (srcs s' j) = cq (srcs s j)) ->
  cat_ s' = place_of s t p -> asks p -> hand p = hand (cat_ s t) -> OI s'.
Proof.
  intros O M Hh Q E A X.
  assert (HH : forall w x, has s' w x <-> has s w x).
  { intros [|j|u] x; cbn; [rewrite Hh; reflexivity|rewrite Q; reflexivity|]. rewrite E. destruct (Nat.eq_dec u t) as [->|Nu]; [rewrite place_same, X; reflexivity|rewrite place_other by exact Nu; reflexivity]. }
  destruct O as [O1 O2 O3 O4 O5 O6 O7 O8 O9]. split; rewrite ?M, ?Hh; auto.
  - intros w x H. apply HH in H. eauto.
  - intros w w' x H H'. apply HH in H. apply HH in H'. eauto.
  - intros x I. destruct (O6 x I) as [w H]. exists w. apply HH, H.
  - intros j. rewrite Q. auto.
  - intros u j n. rewrite E. apply ask_upd; [split; auto|exact A].
Qed.
(** Segment [m] goes from one place to another. *)
Lemma OI_move s s' m w2 : OI s -> maps s' = maps s -> In m (maps s) ->
  (forall w x, has s' w x <-> (x = m /\ w = w2) \/ (has s w x /\ x <> m)) ->
  NoDup (map fst (held s')) -> (forall j, NoDup (cq (srcs s' j))) ->
  (forall t j n, cat_ s' t = PLock j n \/ cat_ s' t = PFind j n \/ cat_ s' t = PMap j n \/ cat_ s' t = PUnl j n None -> 0 < n) -> OI s'.
Proof.
  intros [O1 O2 O3 O4 O5 O6 O7 O8 O9] M Im HH N1 N2 AA. split; rewrite ?M; auto.
  - intros w x H. apply HH in H. destruct H as [[-> _]|[H _]]; eauto.
  - intros w w' x H H'. apply HH in H. apply HH in H'. destruct H as [[-> ->]|[H F]]; destruct H' as [[E ->]|[H' F']]; try congruence; try contradiction. eauto.
  - intros x I. destruct (seg_eqb_spec x m) as [->|F]; [exists w2; apply HH; tauto|]. destruct (O6 x I) as [w H]. exists w. apply HH. tauto.
Qed.
(** [m] is mapped. *)
Lemma OI_new s s' m w2 : OI s -> maps s' = m :: maps s -> 0 < snd m -> (forall x, In x (maps s) -> apart m x) ->
  (forall w x, has s' w x <-> (x = m /\ w = w2) \/ has s w x) ->
  held s' = held s -> (forall j, cq (srcs s' j) = cq (srcs s j)) ->
  (forall t j n, cat_ s' t = PLock j n \/ cat_ s' t = PFind j n \/ cat_ s' t = PMap j n \/ cat_ s' t = PUnl j n None -> 0 < n) -> OI s'.
Proof.
  intros [O1 O2 O3 O4 O5 O6 O7 O8 O9] M P A HH Hh Q AA.
  assert (F : ~ In m (maps s)) by (intros I; specialize (A m I); unfold apart in A; lia).
  split; rewrite ?M, ?Hh; auto.
  - intros x [<-|I]; auto.
  - intros x y [<-|I] [<-|J] D.
    + congruence.
    + exact (A y J).
    + destruct (A x I) as [B|B]; [right|left]; exact B.
    + exact (O2 x y I J D).
  - constructor; assumption.
  - intros w x H. apply HH in H. destruct H as [[-> _]|H]; [now left|right; eauto].
  - intros w w' x H H'. apply HH in H. apply HH in H'. destruct H as [[-> ->]|H]; destruct H' as [[E ->]|H']; try congruence; try (exfalso; apply F; subst; solve [eauto]). eauto.
  - intros x [<-|I]; [exists w2; apply HH; tauto|]. destruct (O6 x I) as [w H]. exists w. apply HH. tauto.
  - intros j. rewrite Q. auto.
Qed.
(** [m] is unmapped. *)
Lemma OI_gone s s' m : OI s -> (forall x, In x (maps s') <-> In x (maps s) /\ x <> m) -> NoDup (maps s') ->
  (forall w x, has s' w x <-> has s w x /\ x <> m) ->
  held s' = held s -> (forall j, cq (srcs s' j) = cq (srcs s j)) ->
  (forall t j n, cat_ s' t = PLock j n \/ cat_ s' t = PFind j n \/ cat_ s' t = PMap j n \/ cat_ s' t = PUnl j n None -> 0 < n) -> OI s'.
Proof.
  intros [O1 O2 O3 O4 O5 O6 O7 O8 O9] M ND HH Hh Q AA. split; rewrite ?Hh; auto.
  - intros x I. apply M in I. apply O1. tauto.
  - intros x y I J. apply M in I. apply M in J. apply O2; tauto.
  - intros w x H. apply HH in H. apply M. split; [eapply O4|]; apply H.
  - intros w w' x H H'. apply HH in H. apply HH in H'. eapply O5; [apply H|apply H'].
  - intros x I. apply M in I. destruct I as [I F]. destruct (O6 x I) as [w H]. exists w. apply HH. tauto.
  - intros j. rewrite Q. auto.
Qed.

Lemma hand_upd s t p u : hand (place_of s t p u) = if Nat.eqb u t then hand p else hand (cat_ s u).
Proof. unfold place_of. destruct (Nat.eqb u t); reflexivity. Qed.
(** The other threads do not have what thread [t] has. *)
Lemma hand_other s t u m : OI s -> hand (cat_ s t) = Some m -> hand (cat_ s u) = Some m -> u = t.
Proof. intros O H H'. pose proof (oi_one _ O (AtHand t) (AtHand u) m H H') as E. congruence. Qed.
Lemma not_held s t m : OI s -> hand (cat_ s t) = Some m -> ~ In m (map fst (held s)).
Proof. intros O H I. pose proof (oi_one _ O (AtHand t) AtHeld m H I) as E. discriminate. Qed.
Lemma not_cached s t m j : OI s -> hand (cat_ s t) = Some m -> ~ In m (cq (srcs s j)).
Proof. intros O H I. pose proof (oi_one _ O (AtHand t) (AtCache j) m H I) as E. discriminate. Qed.

(** Thread [t] gives what it has in hand to the user. *)
Lemma OI_give s s' t m h p : OI s -> hand (cat_ s t) = Some m -> maps s' = maps s -> held s' = (m, h) :: held s ->
  (forall j, cq (srcs s' j) = cq (srcs s j)) -> cat_ s' = place_of s t p -> asks p -> hand p = None -> OI s'.
Proof.
  intros O Hm M Hh Q E A X.
  apply (OI_move s s' m AtHeld O M).
  - exact (oi_in _ O (AtHand t) m Hm).
  - intros [|j|u] x; cbn.
    + rewrite Hh. cbn. split.
      * intros [<-|I]; [left; tauto|]. destruct (seg_eqb_spec x m) as [->|F]; [left; tauto|right; tauto].
      * intros [[-> _]|[I _]]; tauto.
    + rewrite Q. split; [|intros [[_ B]|[I _]]; [discriminate|exact I]]. intros I. right. split; [exact I|]. intros ->. exact (not_cached s t m j O Hm I).
    + rewrite E, hand_upd. destruct (Nat.eqb_spec u t) as [->|Nu].
      * rewrite X. split; [discriminate|]. intros [[_ B]|[B F]]; [discriminate|congruence].
      * split; [|intros [[_ B]|[B F]]; [discriminate|exact B]]. intros B. right. split; [exact B|]. intros ->. exact (Nu (hand_other s t u m O Hm B)).
  - rewrite Hh. cbn. constructor; [exact (not_held s t m O Hm)|apply (oi_held _ O)].
  - intros j. rewrite Q. apply (oi_cache _ O).
  - rewrite E. apply ask_upd; assumption.
Qed.

Lemma OI_step g N S home s a s' : KI N s -> OI s -> lcok N S home s a -> lcstep g a s = Ok s' -> OI s'.
Proof.
  intros K O C H. pose proof (ki_clean _ _ K) as KC.
  destruct a as [t j n|t j m|t j|t a]; cbn [lcok] in C; [| |contradiction|].
  - destruct C as (L & _ & P). cbn in H. destruct (cat_ s t) eqn:Ep; injection H as <-; try exact O.
    destruct (n <=? keep_max g); (eapply (OI_same s); [exact O|reflexivity|reflexivity|reflexivity|cbn [cat_]; reflexivity|exact P|rewrite Ep; reflexivity]).
  - destruct C as (L & _ & Ei & h & I & _). cbn in H. rewrite Ei in H. injection H as <-.
    assert (Im : In m (map fst (held s))) by (apply in_map_iff; exists (m, h); tauto).
    destruct (drop_split m (held s) Im) as (q1 & h' & q2 & E1 & E2).
    assert (ND : NoDup (map fst q1 ++ m :: map fst q2)) by (pose proof (oi_held _ O) as ND; rewrite E1, map_app in ND; exact ND).
    apply (OI_move s _ m (AtHand t) O); [reflexivity| | | | |].
    + exact (oi_in _ O AtHeld m Im).
    + intros [|i|u] x; cbn.
      * rewrite E2, map_app, (mid_in _ _ _ _ ND). rewrite E1 at 1. rewrite map_app. cbn. split; [tauto|]. intros [[_ B]|B]; [discriminate|exact B].
      * split; [|intros [[_ B]|[B _]]; [discriminate|exact B]]. intros B. right. split; [exact B|]. intros ->.
        pose proof (oi_one _ O AtHeld (AtCache i) m Im B). discriminate.
      * rewrite hand_upd. destruct (Nat.eqb_spec u t) as [->|Nu].
        { cbn. rewrite Ei. cbn. split; [intros B; left; split; congruence|]. intros [[-> _]|[B _]]; [reflexivity|discriminate]. }
        split; [|intros [[_ B]|[B _]]; [congruence|exact B]]. intros B. right. split; [exact B|]. intros ->.
        pose proof (oi_one _ O AtHeld (AtHand u) m Im B). discriminate.
    + cbn. rewrite E2, map_app. exact (NoDup_remove_1 _ _ _ ND).
    + cbn. apply (oi_cache _ O).
    + cbn [cat_]. apply ask_upd; [exact O|exact Logic.I].
  - destruct C as (L & C). cbn in H. specialize (KC t). pose proof (ask_at s t O) as A.
    destruct (cat_ s t) as [|j n|j n|j x|j x|j n r|j n|j x|j x|j x|j x|j x|j|j x|j|j|j] eqn:Ep; cbn in KC; try contradiction.
    + injection H as <-; exact O.
    + destruct (clk (srcs s j)) eqn:Ec; injection H as <-; [exact O|].
      eapply (OI_same s); [exact O|reflexivity|reflexivity| |cbn [cat_]; reflexivity|exact A|rewrite Ep; reflexivity].
      intros i. cbn. unfold src_of. destruct (Nat.eqb_spec i j) as [->|Ni]; reflexivity.
    + destruct (take n (cq (srcs s j))) as [[x l]|] eqn:T; injection H as <-.
      * destruct (take_split _ _ _ _ T) as (Sx & q1 & q2 & E1 & E2).
        assert (Ix : has s (AtCache j) x) by (cbn; rewrite E1; apply in_app_iff; cbn; tauto).
        assert (ND : NoDup (q1 ++ x :: q2)) by (rewrite <- E1; apply (oi_cache _ O)).
        apply (OI_move s _ x (AtHand t) O); [reflexivity| | | | |].
        { exact (oi_in _ O _ _ Ix). }
        { intros [|i|u] y; cbn.
          - split; [|intros [[_ B]|[B _]]; [discriminate|exact B]]. intros B. right. split; [exact B|]. intros ->. pose proof (oi_one _ O _ AtHeld _ Ix B). discriminate.
          - destruct (Nat.eq_dec i j) as [->|Ni].
            + rewrite src_same. cbn. rewrite E2, (mid_in _ _ _ _ ND), <- E1. split; [tauto|]. intros [[_ B]|B]; [discriminate|exact B].
            + rewrite src_other by exact Ni. split; [|intros [[_ B]|[B _]]; [discriminate|exact B]]. intros B. right. split; [exact B|]. intros ->. pose proof (oi_one _ O _ (AtCache i) _ Ix B). congruence.
          - rewrite hand_upd. destruct (Nat.eqb_spec u t) as [->|Nu].
            { cbn. rewrite Ep. cbn. split; [intros B; left; split; congruence|]. intros [[-> _]|[B _]]; [reflexivity|discriminate]. }
            split; [|intros [[_ B]|[B _]]; [congruence|exact B]]. intros B. right. split; [exact B|]. intros ->. pose proof (oi_one _ O _ (AtHand u) _ Ix B). discriminate. }
        { cbn. apply (oi_held _ O). }
        { intros i. cbn. destruct (Nat.eq_dec i j) as [->|Ni]; [rewrite src_same; cbn; rewrite E2; exact (NoDup_remove_1 _ _ _ ND)|rewrite src_other by exact Ni; apply (oi_cache _ O)]. }
        { cbn [cat_]. apply ask_upd; [exact O|exact Logic.I]. }
      * eapply (OI_same s); [exact O|reflexivity|reflexivity|reflexivity|cbn [cat_]; reflexivity|exact A|rewrite Ep; reflexivity].
    + injection H as <-. eapply (OI_same s); [exact O|reflexivity|reflexivity| |cbn [cat_]; reflexivity|exact Logic.I|rewrite Ep; reflexivity].
      intros i. cbn. unfold src_of. destruct (Nat.eqb_spec i j) as [->|Ni]; reflexivity.
    + injection H as <-. eapply (OI_same s); [exact O|reflexivity|reflexivity| |cbn [cat_]; reflexivity|exact Logic.I|rewrite Ep; reflexivity].
      intros i. cbn. unfold src_of. destruct (Nat.eqb_spec i j) as [->|Ni]; reflexivity.
    + destruct r as [x|]; injection H as <-.
      * eapply (OI_give s _ t x); [exact O|rewrite Ep; reflexivity|reflexivity|cbn; reflexivity| |cbn [cat_]; reflexivity|exact Logic.I|reflexivity].
        intros i. cbn. unfold src_of. destruct (Nat.eqb_spec i j) as [->|Ni]; reflexivity.
      * eapply (OI_same s); [exact O|reflexivity|reflexivity| |cbn [cat_]; reflexivity|exact A|rewrite Ep; reflexivity].
        intros i. cbn. unfold src_of. destruct (Nat.eqb_spec i j) as [->|Ni]; reflexivity.
    + injection H as <-. apply (OI_new s _ (a, n) (AtHand t) O); [reflexivity|exact A|exact (C j n eq_refl)| |reflexivity|reflexivity|cbn [cat_]; apply ask_upd; [exact O|exact Logic.I]].
      intros [|i|u] y; cbn; try (split; [tauto|intros [[_ B]|B]; [discriminate|exact B]]).
      rewrite hand_upd. destruct (Nat.eqb_spec u t) as [->|Nu].
      * rewrite Ep. cbn. split; [intros B; left; split; congruence|]. intros [[-> _]|B]; [reflexivity|discriminate].
      * split; [tauto|]. intros [[_ B]|B]; [congruence|exact B].
    + injection H as <-. eapply (OI_give s _ t x); [exact O|rewrite Ep; reflexivity|reflexivity|cbn; reflexivity| |cbn [cat_]; reflexivity|exact Logic.I|reflexivity].
      intros i. cbn. unfold src_of. destruct (Nat.eqb_spec i j) as [->|Ni]; reflexivity.
    + injection H as <-. destruct ((snd x <=? keep_max g) && (csz (srcs s j) <=? keep_mem g));
      (eapply (OI_same s); [exact O|reflexivity|reflexivity|reflexivity|cbn [cat_]; reflexivity|exact Logic.I|rewrite Ep; reflexivity]).
    + destruct (clk (srcs s j)) eqn:Ec; injection H as <-; [exact O|].
      eapply (OI_same s); [exact O|reflexivity|reflexivity| |cbn [cat_]; reflexivity|exact A|rewrite Ep; reflexivity].
      intros i. cbn. unfold src_of. destruct (Nat.eqb_spec i j) as [->|Ni]; reflexivity.
    + injection H as <-. assert (Hm : hand (cat_ s t) = Some x) by (rewrite Ep; reflexivity).
      apply (OI_move s _ x (AtCache j) O); [reflexivity| | | | |].
      * exact (oi_in _ O (AtHand t) x Hm).
      * intros [|i|u] y; cbn.
        { split; [|intros [[_ B]|[B _]]; [discriminate|exact B]]. intros B. right. split; [exact B|]. intros ->. exact (not_held s t x O Hm B). }
        { destruct (Nat.eq_dec i j) as [->|Ni].
          - rewrite src_same. cbn. split; [|intros [[-> _]|[B _]]; tauto]. intros [->|B]; [tauto|]. destruct (seg_eqb_spec y x) as [->|F]; tauto.
          - rewrite src_other by exact Ni. split; [|intros [[_ B]|[B _]]; [congruence|exact B]]. intros B. right. split; [exact B|]. intros ->. exact (not_cached s t x i O Hm B). }
        { rewrite hand_upd. destruct (Nat.eqb_spec u t) as [->|Nu].
          - rewrite Hm. cbn. split; [discriminate|]. intros [[_ B]|[B F]]; [discriminate|congruence].
          - split; [|intros [[_ B]|[B _]]; [discriminate|exact B]]. intros B. right. split; [exact B|]. intros ->. exact (Nu (hand_other s t u x O Hm B)). }
      * cbn. apply (oi_held _ O).
      * intros i. cbn. destruct (Nat.eq_dec i j) as [->|Ni]; [rewrite src_same; cbn; constructor; [exact (not_cached s t x j O Hm)|apply (oi_cache _ O)]|rewrite src_other by exact Ni; apply (oi_cache _ O)].
      * cbn [cat_]. apply ask_upd; [exact O|exact Logic.I].
    + injection H as <-. eapply (OI_same s); [exact O|reflexivity|reflexivity| |cbn [cat_]; reflexivity|exact Logic.I|rewrite Ep; reflexivity].
      intros i. cbn. unfold src_of. destruct (Nat.eqb_spec i j) as [->|Ni]; reflexivity.
    + injection H as <-. eapply (OI_same s); [exact O|reflexivity|reflexivity| |cbn [cat_]; reflexivity|exact Logic.I|rewrite Ep; reflexivity].
      intros i. cbn. unfold src_of. destruct (Nat.eqb_spec i j) as [->|Ni]; reflexivity.
    + destruct (existsb (seg_eqb x) (maps s)); [|discriminate]. injection H as <-. assert (Hm : hand (cat_ s t) = Some x) by (rewrite Ep; reflexivity).
      apply (OI_gone s _ x O); cbn [maps held srcs].
      * intros y. rewrite filter_In. destruct (seg_eqb_spec x y) as [->|F]; cbn; split; intros [B D]; try discriminate; try contradiction; split; auto; congruence.
      * apply NoDup_filter, (oi_maps _ O).
      * intros [|i|u] y; cbn.
        { split; [|tauto]. intros B. split; [exact B|]. intros ->. exact (not_held s t x O Hm B). }
        { split; [|tauto]. intros B. split; [exact B|]. intros ->. exact (not_cached s t x i O Hm B). }
        { rewrite hand_upd. destruct (Nat.eqb_spec u t) as [->|Nu].
          - rewrite Hm. cbn. split; [discriminate|]. intros [B F]. congruence.
          - split; [|tauto]. intros B. split; [exact B|]. intros ->. exact (Nu (hand_other s t u x O Hm B)). }
      * reflexivity.
      * reflexivity.
      * cbn [cat_]. apply ask_upd; [exact O|exact Logic.I].
    + injection H as <-. eapply (OI_same s); [exact O|reflexivity|reflexivity| |cbn [cat_]; reflexivity|exact Logic.I|rewrite Ep; reflexivity].
      intros i. cbn. unfold src_of. destruct (Nat.eqb_spec i j) as [->|Ni]; reflexivity.
Qed.
(** No step faults. *)
Lemma step_ok g N S home s a : KI N s -> OI s -> lcok N S home s a -> exists s', lcstep g a s = Ok s'.
Proof.
  intros K O C. destruct a as [t j n|t j m|t j|t a]; cbn [lcok] in C; [| |contradiction|]; cbn.
  - destruct (cat_ s t); eexists; reflexivity.
  - destruct C as (_ & _ & E & _). rewrite E. eexists; reflexivity.
  - pose proof (ki_clean _ _ K t) as KC.
    destruct (cat_ s t) as [|j n|j n|j x|j x|j n r|j n|j x|j x|j x|j x|j x|j|j x|j|j|j] eqn:Ep; cbn in KC; try contradiction; try (eexists; reflexivity).
    + destruct (clk (srcs s j)); eexists; reflexivity.
    + destruct (take n (cq (srcs s j))) as [[x l]|]; eexists; reflexivity.
    + destruct r; eexists; reflexivity.
    + destruct (clk (srcs s j)); eexists; reflexivity.
    + assert (I : In x (maps s)) by (apply (oi_in _ O (AtHand t)); cbn; rewrite Ep; reflexivity).
      assert (E : existsb (seg_eqb x) (maps s) = true) by (apply existsb_exists; exists x; split; [exact I|destruct (seg_eqb_spec x x); [reflexivity|contradiction]]).
      rewrite E. eexists; reflexivity.
Qed.
