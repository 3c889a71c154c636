(** Proofs about several threads on light memory sources. *)
From Verif Require Import Word Res LightModel LightConcModel LightConcSpec.
From Coq Require Import ZArith List Bool Lia.
Import ListNotations.
Open Scope Z_scope.

Lemma place_same s t p : place_of s t p t = p.
Proof. unfold place_of. now rewrite Nat.eqb_refl. Qed.
Lemma place_other s t p u : u <> t -> place_of s t p u = cat_ s u.
Proof. intros N. unfold place_of. destruct (Nat.eqb_spec u t); [contradiction|reflexivity]. Qed.
Lemma src_same s j c : src_of s j c j = c.
Proof. unfold src_of. now rewrite Nat.eqb_refl. Qed.
Lemma src_other s j c i : i <> j -> src_of s j c i = srcs s i.
Proof. intros N. unfold src_of. destruct (Nat.eqb_spec i j); [contradiction|reflexivity]. Qed.
Lemma seg_eqb_spec a b : reflect (a = b) (seg_eqb a b).
Proof.
  unfold seg_eqb. destruct a as [a n], b as [b m]; cbn. destruct (Z.eqb_spec a b) as [E|E]; destruct (Z.eqb_spec n m) as [F|F]; cbn; constructor; congruence.
Qed.

(** ** Lists *)
Lemma take_split n l x l' : take n l = Some (x, l') -> snd x = n /\ exists a b, l = a ++ x :: b /\ l' = a ++ b.
Proof.
  revert x l'; induction l as [|y l IH]; intros x l' H; cbn in H; [discriminate|].
  destruct (Z.eqb_spec (snd y) n) as [E|E].
  - injection H as <- <-. split; [exact E|]. exists [], l. split; reflexivity.
  - destruct (take n l) as [[r k]|] eqn:T; [|discriminate]. injection H as <- <-.
    destruct (IH _ _ eq_refl) as (A & a & b & -> & ->). split; [exact A|]. exists (y :: a), b. split; reflexivity.
Qed.
Lemma drop_split x l : In x (map fst l) -> exists a h b, l = a ++ (x, h) :: b /\ drop_held x l = a ++ b.
Proof.
  induction l as [|y l IH]; cbn; [contradiction|]. intros [E|I].
  - exists [], (snd y), l. destruct (seg_eqb_spec (fst y) x) as [F|F]; [|contradiction]. split; [destruct y; cbn in *; congruence|reflexivity].
  - destruct (seg_eqb_spec (fst y) x) as [F|F].
    + exists [], (snd y), l. split; [destruct y; cbn in *; congruence|reflexivity].
    + destruct (IH I) as (a & h & b & E1 & E2). exists (y :: a), h, b. rewrite E2. split; [now rewrite E1 at 1|reflexivity].
Qed.
Lemma mid_in {A} (a b : list A) x y : NoDup (a ++ x :: b) -> (In y (a ++ b) <-> In y (a ++ x :: b) /\ y <> x).
Proof.
  intros D. split.
  - intros I. split; [apply in_app_iff; apply in_app_iff in I; cbn; tauto|]. intros ->. exact (NoDup_remove_2 _ _ _ D I).
  - intros [I F]. apply in_app_iff; apply in_app_iff in I; cbn in I. intuition congruence.
Qed.
Lemma bytes_app a b : bytes (a ++ b) = bytes a + bytes b.
Proof. induction a as [|x a IH]; cbn [app bytes fold_right]; [reflexivity|]. fold (bytes (a ++ b)). fold (bytes a). lia. Qed.
Lemma bytes_cons x b : bytes (x :: b) = snd x + bytes b. Proof. reflexivity. Qed.
Lemma bytes_nonneg l : (forall x, In x l -> 0 < snd x) -> 0 <= bytes l.
Proof.
  induction l as [|x l IH]; intros H; [cbn; lia|]. rewrite bytes_cons. pose proof (H x (or_introl eq_refl)).
  assert (0 <= bytes l) by (apply IH; intros y I; apply H; now right). lia.
Qed.
Lemma home_app j a b : count_home j (a ++ b) = count_home j a + count_home j b.
Proof. induction a as [|x a IH]; cbn [app count_home fold_right]; [reflexivity|]. fold (count_home j (a ++ b)). fold (count_home j a). lia. Qed.
Lemma home_cons j x b : count_home j (x :: b) = (if Nat.eqb (snd x) j then 1 else 0) + count_home j b. Proof. reflexivity. Qed.

(** ** Sums over threads *)
Lemma sum_ext (f f' : nat -> Z) l : (forall x, In x l -> f' x = f x) -> fold_right (fun i a => f' i + a) 0 l = fold_right (fun i a => f i + a) 0 l.
Proof. induction l as [|x l IH]; intros H; cbn; [reflexivity|]. rewrite IH; [|intros y I; apply H; now right]. rewrite (H x (or_introl eq_refl)). reflexivity. Qed.
Lemma sum_split (f f' : nat -> Z) t l : NoDup l -> In t l -> (forall x, x <> t -> f' x = f x) ->
  fold_right (fun i a => f' i + a) 0 l = fold_right (fun i a => f i + a) 0 l - f t + f' t.
Proof.
  induction l as [|x l IH]; intros D I H; [contradiction|]. inversion D as [|? ? NI D']; subst. cbn. destruct I as [->|I].
  - rewrite (sum_ext f f' l); [lia|]. intros y J. apply H. intros ->. contradiction.
  - rewrite (IH D' I H), (H x); [lia|]. intros ->. contradiction.
Qed.
Lemma total_upd f f' t n : (t < n)%nat -> (forall x, x <> t -> f' x = f x) -> total f' n = total f n - f t + f' t.
Proof. intros L H. unfold total. apply sum_split; [apply seq_NoDup|apply in_seq; lia|exact H]. Qed.
Lemma total_ext f f' n : (forall x, (x < n)%nat -> f' x = f x) -> total f' n = total f n.
Proof. intros H. apply sum_ext. intros x I. apply in_seq in I. apply H. lia. Qed.
Lemma sum_le (f : nat -> Z) m l : (forall x, In x l -> f x <= m) -> fold_right (fun i a => f i + a) 0 l <= Z.of_nat (length l) * m.
Proof.
  induction l as [|x l IH]; intros H; [cbn; lia|]. cbn [fold_right length]. pose proof (H x (or_introl eq_refl)).
  assert (K := IH (fun y I => H y (or_intror I))). lia.
Qed.
Lemma sum_ge (f : nat -> Z) l : (forall x, In x l -> 0 <= f x) -> 0 <= fold_right (fun i a => f i + a) 0 l.
Proof. induction l as [|x l IH]; intros H; cbn; [lia|]. pose proof (H x (or_introl eq_refl)). assert (K := IH (fun y I => H y (or_intror I))). lia. Qed.
Lemma total_le f m n : (forall x, (x < n)%nat -> f x <= m) -> total f n <= Z.of_nat n * m.
Proof. intros H. unfold total. replace (Z.of_nat n) with (Z.of_nat (length (seq 0 n))) by (now rewrite seq_length). apply sum_le. intros x I. apply in_seq in I. apply H. lia. Qed.
Lemma total_ge f n : (forall x, (x < n)%nat -> 0 <= f x) -> 0 <= total f n.
Proof. intros H. apply sum_ge. intros x I. apply in_seq in I. apply H. lia. Qed.
Lemma total_0 f n : (forall x, (x < n)%nat -> f x = 0) -> total f n = 0.
Proof. intros H. unfold total. rewrite (sum_ext (fun _ => 0) f); [|intros x I; apply in_seq in I; apply H; lia]. induction (seq 0 n) as [|x l IH]; [reflexivity|]. cbn [fold_right]. rewrite IH. reflexivity. Qed.
Lemma total_pos f n t : (t < n)%nat -> (forall x, (x < n)%nat -> 0 <= f x) -> f t <= total f n.
Proof.
  intros L H. rewrite (total_upd (fun x => if Nat.eqb x t then 0 else f x) f t n L).
  - rewrite Nat.eqb_refl. pose proof (total_ge (fun x => if Nat.eqb x t then 0 else f x) n). cbv beta in H0.
    assert (0 <= total (fun x => if Nat.eqb x t then 0 else f x) n) by (apply H0; intros x Lx; destruct (Nat.eqb_spec x t); [lia|auto]). lia.
  - intros x Nx. destruct (Nat.eqb_spec x t); [contradiction|reflexivity].
Qed.

(** ** The lock *)
Definition loopb (p : cplace) : Prop := match p with PCLock _ | PCGo _ => False | _ => True end.
Record KI (N : nat) (s : lcst) : Prop := mkKI {
  ki_out : forall t, (N <= t)%nat -> cat_ s t = PIdle;
  ki_lock : forall j t, clk (srcs s j) = Some t <-> locked_in j (cat_ s t);
  ki_clean : forall t, loopb (cat_ s t) }.
Lemma KI_0 N : KI N lc0.
Proof. split; cbn; intros; [reflexivity|split; [discriminate|contradiction]|exact Logic.I]. Qed.

(** A step of one thread on one source. *)
Lemma KI_gen N s s' t j p (L : (t < N)%nat) :
  KI N s -> cat_ s' = place_of s t p -> loopb p ->
  (forall i, i <> j -> clk (srcs s' i) = clk (srcs s i)) ->
  (forall i, i <> j -> (locked_in i p <-> locked_in i (cat_ s t))) ->
  (locked_in j p -> clk (srcs s' j) = Some t /\ (locked_in j (cat_ s t) \/ clk (srcs s j) = None)) ->
  (~ locked_in j p -> if clk (srcs s' j) then clk (srcs s' j) = clk (srcs s j) /\ ~ locked_in j (cat_ s t) else clk (srcs s j) = None \/ locked_in j (cat_ s t)) ->
  KI N s'.
Proof.
  intros [O K C] E B S1 S2 P1 P2. split.
  - intros u Lu. rewrite E, place_other by lia. auto.
  - intros i u. rewrite E. destruct (Nat.eq_dec u t) as [->|Nu].
    + rewrite place_same. destruct (Nat.eq_dec i j) as [->|Ni].
      * assert (Dc : locked_in j p \/ ~ locked_in j p) by (destruct p as [|j0 n|j0 n|j0 x|j0 x|j0 n r|j0 n|j0 x|j0 x|j0 x|j0 x|j0 x|j0|j0 x|j0|j0|j0]; cbn; try tauto; lia).
        destruct Dc as [H|H]; [split; [intros _; exact H|intros _; apply P1, H]|].
        split; [|contradiction]. intros Z. specialize (P2 H). rewrite Z in P2. destruct P2 as [Q1 Q2].
        symmetry in Q1. apply K in Q1. contradiction.
      * rewrite (S1 i Ni), (S2 i Ni). apply K.
    + rewrite place_other by exact Nu. destruct (Nat.eq_dec i j) as [->|Ni]; [|rewrite (S1 i Ni); apply K].
      assert (Dc : locked_in j p \/ ~ locked_in j p) by (destruct p as [|j0 n|j0 n|j0 x|j0 x|j0 n r|j0 n|j0 x|j0 x|j0 x|j0 x|j0 x|j0|j0 x|j0|j0|j0]; cbn; try tauto; lia).
      destruct Dc as [H|H].
      * destruct (P1 H) as [Z [Y|Y]]; rewrite Z; (split; [congruence|]); intros W; apply K in W; [apply K in Y|]; congruence.
      * specialize (P2 H). destruct (clk (srcs s' j)) as [v|] eqn:Z.
        { destruct P2 as [P2 _]. rewrite P2. apply K. }
        split; [discriminate|]. intros W. apply K in W. destruct P2 as [P2|P2]; [congruence|]. apply K in P2. congruence.
  - intros u. rewrite E. destruct (Nat.eq_dec u t) as [->|Nu]; [rewrite place_same; exact B|rewrite place_other by exact Nu; apply C].
Qed.
Ltac srcs_solve := cbn [srcs clk cq csz ccnt]; intros; rewrite ?src_same; rewrite ?src_other by assumption; cbn [clk cq csz ccnt].
Ltac kgen N s t j L K := eapply (KI_gen N s) with (t := t) (j := j); [exact L|exact K|cbn [cat_]; reflexivity| | | | |].
Ltac kfin Ep := srcs_solve; try rewrite Ep in *; cbn in *; intros; try tauto; try (match goal with |- context [clk (srcs ?s ?j)] => destruct (clk (srcs s j)) eqn:? end); try tauto; intuition congruence.
Lemma KI_step g N S home s a s' : KI N s -> lcok N S home s a -> lcstep g a s = Ok s' -> KI N s'.
Proof.
  intros K O H. pose proof (ki_lock _ _ K) as KL. pose proof (ki_clean _ _ K) as KC.
  destruct a as [t j n|t j x|t j|t a]; cbn [lcok] in O; [| |contradiction|].
  - destruct O as (L & _). cbn in H. destruct (cat_ s t) eqn:Ep; injection H as <-; try exact K.
    kgen N s t j L K; cbn [srcs]; try rewrite Ep; destruct (n <=? keep_max g); cbn; try tauto; try (intros; tauto);
    intros _; destruct (clk (srcs s j)); tauto.
  - destruct O as (L & _). cbn in H. destruct (cat_ s t) eqn:Ep; injection H as <-; try exact K.
    kgen N s t j L K; cbn [srcs]; try rewrite Ep; cbn; try tauto; try (intros; tauto);
    intros _; destruct (clk (srcs s j)); tauto.
  - destruct O as (L & _). cbn in H. specialize (KC t).
    destruct (cat_ s t) as [|j n|j n|j x|j x|j n r|j n|j x|j x|j x|j x|j x|j|j x|j|j|j] eqn:Ep; cbn in KC; try contradiction.
    + injection H as <-; exact K.
    + destruct (clk (srcs s j)) eqn:Ec; injection H as <-; [exact K|].
      kgen N s t j L K; kfin Ep.
    + destruct (take n (cq (srcs s j))) as [[x l]|]; injection H as <-; assert (Ec : clk (srcs s j) = Some t) by (apply KL; rewrite Ep; reflexivity);
      kgen N s t j L K; kfin Ep.
    + injection H as <-; assert (Ec : clk (srcs s j) = Some t) by (apply KL; rewrite Ep; reflexivity).
      kgen N s t j L K; kfin Ep.
    + injection H as <-; assert (Ec : clk (srcs s j) = Some t) by (apply KL; rewrite Ep; reflexivity).
      kgen N s t j L K; kfin Ep.
    + assert (Ec : clk (srcs s j) = Some t) by (apply KL; rewrite Ep; reflexivity).
      destruct r as [x|]; injection H as <-;
      kgen N s t j L K; kfin Ep.
    + injection H as <-. kgen N s t j L K; kfin Ep.
    + injection H as <-. kgen N s t j L K; kfin Ep.
    + injection H as <-. destruct ((snd x <=? keep_max g) && (csz (srcs s j) <=? keep_mem g));
      kgen N s t j L K; kfin Ep.
    + destruct (clk (srcs s j)) eqn:Ec; injection H as <-; [exact K|].
      kgen N s t j L K; kfin Ep.
    + injection H as <-; assert (Ec : clk (srcs s j) = Some t) by (apply KL; rewrite Ep; reflexivity).
      kgen N s t j L K; kfin Ep.
    + injection H as <-; assert (Ec : clk (srcs s j) = Some t) by (apply KL; rewrite Ep; reflexivity).
      kgen N s t j L K; kfin Ep.
    + injection H as <-. kgen N s t j L K; kfin Ep.
    + destruct (existsb (seg_eqb x) (maps s)); [|discriminate]. injection H as <-.
      kgen N s t j L K; kfin Ep.
    + injection H as <-. kgen N s t j L K; kfin Ep.
Qed.
