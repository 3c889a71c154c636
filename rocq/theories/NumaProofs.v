From Verif Require Import Word Res RegionModel RegionSpec RegionProofs NumaModel NumaSpec.
From Coq Require Import ZArith List Bool Lia.
Import ListNotations.
Open Scope Z_scope.

Lemma migrate_covers : forall a n, 0 <= a -> 0 < n -> a + n <= 2 ^ 64 - 4096 -> let (a', n') := migrate_range a n in
  a' mod 4096 = 0 /\ n' mod 4096 = 0 /\ a - 4096 < a' <= a /\ a + n <= a' + n' < a + n + 4096.
Proof.
  intros a n A N B. change (2 ^ 64) with 18446744073709551616 in B. unfold migrate_range, PAGE.
  rewrite (add64_small n) by (rewrite W64_val; lia).
  destruct (Z.eqb_spec ((n + a mod 4096) mod 4096) 0) as [E|E]; [lia|].
  rewrite add64_small by (rewrite W64_val; lia). lia.
Qed.
(** The pages counted by the statistics hold the block exactly when it starts and ends on page boundaries. *)
Lemma stat_covers_iff : forall a n, 0 <= a -> 0 < n -> a + n < 2 ^ 64 -> let (f, l) := stat_pages a n in
  f * 4096 <= a /\ (a + n <= l * 4096 <-> a mod 4096 = 0 /\ n mod 4096 = 0).
Proof.
  intros a n A N B. change (2 ^ 64) with 18446744073709551616 in B. unfold stat_pages, PAGE.
  rewrite add64_small by (rewrite W64_val; lia). lia.
Qed.
Lemma stat_exact : forall a n, 0 <= a -> 0 < n -> a + n < 2 ^ 64 -> a mod 4096 = 0 -> n mod 4096 = 0 ->
  let (f, l) := stat_pages a n in f * 4096 = a /\ l * 4096 = a + n.
Proof.
  intros a n A N B MA MN. change (2 ^ 64) with 18446744073709551616 in B. unfold stat_pages, PAGE.
  rewrite add64_small by (rewrite W64_val; lia). lia.
Qed.

Lemma visits_cons x y l : visits x (y :: l) = (if (fst y =? fst x) && (snd y =? snd x) then 1 else 0) + visits x l.
Proof. reflexivity. Qed.
Lemma visits_app x l1 l2 : visits x (l1 ++ l2) = visits x l1 + visits x l2.
Proof. induction l1 as [|y l1 IH]; cbn; [reflexivity|]. fold (visits x (l1 ++ l2)) (visits x l1). rewrite IH. lia. Qed.
Lemma visits_in x l : 0 <= visits x l /\ (0 < visits x l <-> In x l).
Proof.
  induction l as [|y l (IH1 & IH2)]; cbn; [lia|]. fold (visits x l). destruct ((fst y =? fst x) && (snd y =? snd x)) eqn:E.
  - assert (y = x) by (destruct y, x; cbn in *; f_equal; lia). split; [lia|]. split; [tauto|lia].
  - assert (y <> x) by (intros ->; rewrite !Z.eqb_refl in E; discriminate). split; [lia|]. rewrite Z.add_0_l, IH2. tauto.
Qed.
(** Integers of [lo, lo+n) in [p, q). *)
Definition overlap (lo n p q : Z) : Z := Z.max 0 (Z.min (lo + n) q - Z.max lo p).
Lemma overlap_in k n p q : 0 <= n -> p <= k < q -> overlap k (n + 1) p q = 1 + overlap (k + 1) n p q.
Proof. unfold overlap. lia. Qed.
Lemma overlap_out k n p q : 0 <= n -> ~ (p <= k < q) -> overlap k (n + 1) p q = overlap (k + 1) n p q.
Proof. unfold overlap. lia. Qed.
Lemma overlap_nil k p q : overlap k 0 p q = 0.
Proof. unfold overlap. lia. Qed.
Lemma overlap_join lo n m p q : 0 <= n -> 0 <= m -> overlap lo (n + m) p q = overlap lo n p q + overlap (lo + n) m p q.
Proof. unfold overlap. lia. Qed.
Lemma overlap_none lo n p q : (forall k, lo <= k < lo + n -> ~ (p <= k < q)) -> overlap lo n p q = 0.
Proof.
  intros H. unfold overlap. destruct (Z.leb_spec (Z.min (lo + n) q) (Z.max lo p)) as [Le|Lt]; [lia|].
  destruct (H (Z.max lo p)); lia.
Qed.
Lemma tab_region s i e j : regs s i = Some e -> 0 <= j < ENTRIES -> tab s (i * ENTRIES + j) = e j.
Proof.
  intros R Hj. unfold tab. replace ((i * ENTRIES + j) / ENTRIES) with i by (unfold ENTRIES in *; lia). rewrite R. f_equal. unfold ENTRIES in *. lia.
Qed.
Lemma tab_noregion s i k : regs s i = None -> i * ENTRIES <= k < i * ENTRIES + ENTRIES -> tab s k = 0.
Proof. intros R Hk. unfold tab. replace (k / ENTRIES) with i by (unfold ENTRIES in *; lia). rewrite R. reflexivity. Qed.
Lemma overlap_all lo n p d : lo <= p -> p + d <= lo + n -> 0 <= d -> overlap lo n p (p + d) = d.
Proof. unfold overlap. lia. Qed.

Section scan.
Variables (s : rst) (L : list seg) (c : Z).
Hypothesis I : RInv s L.
(** What an entry leads to. *)
Lemma entry_hdr k : 0 <= k < 134217728 -> tab s k <> 0 -> exists x, In x L /\ tab s k = sb x /\ cov x k /\ hdr s (tab s k) = Some (ss x, sc x).
Proof.
  intros K E. destruct (i_some _ _ I k K E) as (x & Hx & Ex & Cx). exists x. repeat split; try assumption; try apply Cx. rewrite Ex. apply (i_hdr _ _ I x Hx).
Qed.
Lemma cov_tab x k : In x L -> 0 <= k < 134217728 -> cov x k <-> tab s k = sb x.
Proof.
  intros Hx K. destruct (i_ok _ _ I x Hx) as [Ox _]. split.
  - intros C. destruct (Z.eq_dec (tab s k) 0) as [E|E]; [destruct (i_none _ _ I k K E x Hx C)|].
    destruct (entry_hdr k K E) as (y & Hy & Ey & Cy & _). destruct (i_apart _ _ I x y Hx Hy) as [<-|A]; [exact Ey|].
    destruct (cov_apart x y k Ox (proj1 (i_ok _ _ I y Hy)) A C Cy).
  - intros T. assert (E : tab s k <> 0) by (rewrite T; destruct Ox as (O & _); lia).
    destruct (entry_hdr k K E) as (y & Hy & Ey & Cy & _). assert (x = y) as -> by (apply (same_seg x y L (i_apart _ _ I) (i_ok _ _ I) Hx Hy); congruence). exact Cy.
Qed.

Lemma region_scan : forall n j i e, regs s i = Some e -> 0 <= i < 256 -> 0 <= j -> j + Z.of_nat n <= ENTRIES ->
  exists l, scan_region n j c (hdr s) e = Ok l /\
   (forall y, In y l -> exists x, In x L /\ sc x = c /\ y = (sb x, ss x)) /\
   (forall x, In x L -> sc x = c -> visits (sb x, ss x) l = overlap (i * ENTRIES + j) (Z.of_nat n) (sb x / MB2) (sb x / MB2 + ss x / MB2)).
Proof.
  induction n as [|n IH]; intros j i e R Hi Hj Hn.
  { exists []. split; [reflexivity|]. split; [intros y []|]. intros x _ _. symmetry. apply overlap_nil. }
  cbn [scan_region]. destruct (IH (j + 1) i e R Hi) as (l & El & Hl & Vl); [lia|lia|].
  assert (T : exists k, k = i * ENTRIES + j /\ 0 <= k < 134217728 /\ tab s k = e j).
  { exists (i * ENTRIES + j). split; [reflexivity|]. split; [unfold ENTRIES in *; lia|]. apply tab_region; [exact R|lia]. }
  destruct T as (k & Ek & K & T). rewrite <- Ek. rewrite Z.add_assoc, <- Ek in Vl.
  assert (N0 : 0 <= Z.of_nat n) by lia. rewrite Nat2Z.inj_succ. change (Z.succ (Z.of_nat n)) with (Z.of_nat n + 1).
  clear IH Ek Hn Hi Hj.
  destruct (Z.eqb_spec (e j) 0) as [E|E].
  - exists l. split; [exact El|]. split; [exact Hl|]. intros x Hx Cx. rewrite (Vl x Hx Cx).
    symmetry. apply overlap_out; [exact N0|]. apply (i_none _ _ I k K); [congruence|exact Hx].
  - destruct (entry_hdr k K) as (x0 & H0 & T0 & C0 & D0); [congruence|]. rewrite T in T0, D0. rewrite D0, El. cbn [rbind].
    eexists. split; [reflexivity|]. split.
    + intros y Hy. destruct (Z.eqb_spec (sc x0) c) as [F|F]; [|apply Hl; exact Hy]. destruct Hy as [<-|Hy]; [|apply Hl; exact Hy].
      exists x0. split; [exact H0|]. split; [exact F|]. congruence.
    + intros x Hx Cx. specialize (Vl x Hx Cx). pose proof (cov_tab x k Hx K) as CT. rewrite T in CT.
      destruct (Z.eq_dec (sb x) (sb x0)) as [B|B].
      * assert (x = x0) as -> by (apply (same_seg x x0 L (i_apart _ _ I) (i_ok _ _ I) Hx H0 B)). rewrite Cx, Z.eqb_refl, visits_cons. cbn [fst snd].
        rewrite T0, !Z.eqb_refl, Vl. cbn [andb]. symmetry. apply overlap_in; [exact N0|exact C0].
      * assert (NC : ~ cov x k) by (rewrite CT; congruence). rewrite (overlap_out k _ _ _ N0 NC), <- Vl. destruct (sc x0 =? c); [|reflexivity].
        rewrite visits_cons. cbn [fst snd]. rewrite T0. destruct (Z.eqb_spec (sb x0) (sb x)) as [Q|Q]; [congruence|]. reflexivity.
Qed.

Lemma regions_scan : forall n i, 0 <= i -> i + Z.of_nat n <= 256 ->
  exists l, scan_regions n i c s = Ok l /\
   (forall y, In y l -> exists x, In x L /\ sc x = c /\ y = (sb x, ss x)) /\
   (forall x, In x L -> sc x = c -> visits (sb x, ss x) l = overlap (i * ENTRIES) (Z.of_nat n * ENTRIES) (sb x / MB2) (sb x / MB2 + ss x / MB2)).
Proof.
  induction n as [|n IH]; intros i Hi Hn.
  { exists []. split; [reflexivity|]. split; [intros y []|]. intros x _ _. symmetry. apply overlap_nil. }
  cbn [scan_regions]. destruct (IH (i + 1)) as (l2 & E2 & H2 & V2); [lia|lia|]. rewrite E2.
  assert (R : exists l1, match regs s i with None => Ok [] | Some e => scan_region (Z.to_nat ENTRIES) 0 c (hdr s) e end = Ok l1 /\
   (forall y, In y l1 -> exists x, In x L /\ sc x = c /\ y = (sb x, ss x)) /\
   (forall x, In x L -> sc x = c -> visits (sb x, ss x) l1 = overlap (i * ENTRIES) ENTRIES (sb x / MB2) (sb x / MB2 + ss x / MB2))).
  { destruct (regs s i) as [e|] eqn:R.
    - pose proof (Z2Nat.id ENTRIES ltac:(unfold ENTRIES; lia)) as NE. set (ne := Z.to_nat ENTRIES) in *. clearbody ne.
      destruct (region_scan ne 0 i e R) as (l1 & E1 & H1 & V1); [lia|lia|lia|].
      exists l1. split; [exact E1|]. split; [exact H1|]. intros x Hx Cx. rewrite (V1 x Hx Cx). rewrite NE, Z.add_0_r. reflexivity.
    - exists []. split; [reflexivity|]. split; [intros y []|]. intros x Hx Cx. cbn [visits fold_right]. symmetry.
      apply overlap_none. intros k Hk C. assert (K : 0 <= k < 134217728) by (unfold ENTRIES in *; lia).
      apply (i_none _ _ I k K) with x; [|exact Hx|exact C]. apply (tab_noregion s i); [exact R|exact Hk]. }
  destruct R as (l1 & -> & H1 & V1). cbn [rbind]. exists (l1 ++ l2). split; [reflexivity|]. split.
  - intros y Hy. apply in_app_or in Hy. destruct Hy as [Hy|Hy]; [apply H1|apply H2]; exact Hy.
  - intros x Hx Cx. rewrite visits_app, (V1 x Hx Cx), (V2 x Hx Cx).
    replace (Z.of_nat (S n) * ENTRIES) with (ENTRIES + Z.of_nat n * ENTRIES) by lia. rewrite overlap_join by (unfold ENTRIES; lia). f_equal. f_equal. lia.
Qed.
Lemma scan_ok : exists l, scan c s = Ok l /\ (forall b sz, In (b, sz) l <-> In (mkSeg b sz c) L) /\
  (forall b sz, In (mkSeg b sz c) L -> visits (b, sz) l = sz / 2097152).
Proof.
  destruct (regions_scan (Z.to_nat MAXREG) 0) as (l & E & H & V); [lia|unfold MAXREG; rewrite Z2Nat.id; lia|].
  assert (V' : forall b sz, In (mkSeg b sz c) L -> visits (b, sz) l = sz / 2097152).
  { intros b sz Hx. pose proof (V (mkSeg b sz c) Hx eq_refl) as Q. cbn [sb ss] in Q. rewrite Q. clear Q V. destruct (i_ok _ _ I _ Hx) as [(O1 & O2 & O3 & O4) _]. cbn [sb ss] in *.
    change (2 ^ 48) with 281474976710656 in O2. rewrite Z2Nat.id by (unfold MAXREG; lia). apply overlap_all; unfold MAXREG, ENTRIES, MB2; lia. }
  exists l. split; [exact E|]. split; [|exact V']. intros b sz. split.
  - intros Hy. destruct (H _ Hy) as (x & Hx & Cx & Ex). injection Ex as -> ->. destruct x as [xb xs xc]. cbn in *. subst. exact Hx.
  - intros Hx. apply (proj2 (visits_in (b, sz) l)). rewrite (V' b sz Hx). destruct (i_ok _ _ I _ Hx) as [(O1 & O2 & O3 & O4) _]. cbn [sb ss] in *. lia.
Qed.
End scan.

Lemma scan_exact : forall s L c, rreach s L -> exists l, scan c s = Ok l /\ (forall b sz, In (b, sz) l <-> In (mkSeg b sz c) L).
Proof. intros s L c R. destruct (scan_ok s L c (rreach_inv s L R)) as (l & E & H & _). eauto. Qed.
Lemma scan_visits : forall s L c b sz, rreach s L -> In (mkSeg b sz c) L -> exists l, scan c s = Ok l /\ visits (b, sz) l = sz / 2097152.
Proof. intros s L c b sz R H. destruct (scan_ok s L c (rreach_inv s L R)) as (l & E & _ & V). eauto. Qed.

Lemma pages_sum : forall l x n, (forall y, In y l -> y = x) -> fold_right (fun x n => pages_of x + n) n l = pages_of x * visits x l + n.
Proof.
  induction l as [|y l IH]; intros x n H; [cbn [fold_right visits]; lia|]. rewrite visits_cons. cbn [fold_right]. rewrite (IH x n) by (intros z Hz; apply H; right; exact Hz).
  rewrite (H y (or_introl eq_refl)), !Z.eqb_refl. cbn [andb]. ring.
Qed.
Lemma pages_overcounted : forall s b sz c, rreach s [mkSeg b sz c] -> total_pages c s = Ok (sz / 4096 * (sz / 2097152)).
Proof.
  intros s b sz c R. destruct (scan_ok s _ c (rreach_inv _ _ R)) as (l & E & H & V). unfold total_pages. rewrite E. cbn [rbind].
  rewrite (pages_sum l (b, sz)).
  - rewrite (V b sz (or_introl eq_refl)). f_equal. rewrite Z.add_0_r. f_equal. unfold pages_of, stat_pages, PAGE. cbn [fst snd].
    destruct (i_ok _ _ (rreach_inv _ _ R) _ (or_introl eq_refl)) as [(O1 & O2 & O3 & O4) _]. cbn [sb ss] in *. change (2 ^ 48) with 281474976710656 in O2.
    rewrite add64_small by (rewrite W64_val; lia). lia.
  - intros [b' sz'] Hy. apply H in Hy. destruct Hy as [Q|[]]. congruence.
Qed.
