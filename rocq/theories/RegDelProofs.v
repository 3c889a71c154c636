(** Regions of the registry: invariant with their creation and removal. *)
From Verif Require Import Word Res RegionModel RegionSpec RegionProofs RegDelModel RegDelSpec.
From Coq Require Import ZArith List Bool Lia.
Import ListNotations.
Open Scope Z_scope.

Lemma has_ref_iff n : forall i e, has_ref n i e = true <-> exists j, i <= j < i + Z.of_nat n /\ e j <> 0.
Proof.
  induction n as [|n IH]; intros i e; cbn [has_ref]; [split; [discriminate|intros (j & H & _); lia]|]. destruct (Z.eqb_spec (e i) 0) as [E|E]; cbn [negb].
  - rewrite IH. split; intros (j & H & K); exists j; (split; [|exact K]); [lia|]. destruct (Z.eq_dec j i) as [->|N]; [contradiction|lia].
  - split; [|reflexivity]. intros _. exists i. split; [lia|exact E].
Qed.
Lemma del_null n : forall i h e, exists e', del_loop n i 0 h e = Ok e' /\ forall j, e' j = if (i <=? j) && (j <? i + Z.of_nat n) then 0 else e j.
Proof.
  induction n as [|n IH]; intros i h e.
  - exists e. split; [reflexivity|]. intros j. destruct ((i <=? j) && (j <? i + Z.of_nat 0)) eqn:E; [lia|reflexivity].
  - cbn [del_loop Z.eqb]. rewrite zupd_same. cbn [Z.eqb]. destruct (IH (i + 1) h (zupd e i 0)) as (e' & -> & T). exists e'. split; [reflexivity|]. intros j. rewrite T. unfold zupd.
    destruct (Z.eqb_spec j i) as [->|N]; [destruct ((i + 1 <=? i) && (i <? i + 1 + Z.of_nat n)), ((i <=? i) && (i <? i + Z.of_nat (S n))) eqn:Q; lia|].
    replace (i + 1 <=? j) with (i <=? j) by lia. replace (i + 1 + Z.of_nat n) with (i + Z.of_nat (S n)) by lia. reflexivity.
Qed.
Lemma ENT : Z.of_nat (Z.to_nat ENTRIES) = 524288. Proof. apply Z2Nat.id. unfold ENTRIES. lia. Qed.
Lemma del_tab id s k : tab (region_del id s) k = tab s k.
Proof.
  unfold region_del. destruct (regs s id) as [e|] eqn:E; [|reflexivity]. destruct (has_ref (Z.to_nat ENTRIES) 0 e) eqn:H; [reflexivity|]. unfold tab. cbn [regs].
  destruct (Z.eq_dec (k / ENTRIES) id) as [D|D]; [|rewrite zupd_other by exact D; reflexivity]. rewrite D, zupd_same, E. destruct (Z.eq_dec (e (k mod ENTRIES)) 0) as [Q|Q]; [symmetry; exact Q|exfalso].
  assert (has_ref (Z.to_nat ENTRIES) 0 e = true); [|congruence]. apply has_ref_iff. exists (k mod ENTRIES). split; [rewrite ENT; unfold ENTRIES; lia|exact Q].
Qed.
Lemma del_hdr id s : hdr (region_del id s) = hdr s.
Proof. unfold region_del. destruct (regs s id); [destruct (has_ref _ _ _)|]; reflexivity. Qed.
Lemma wipe_ok id s : exists s', wipe id s = Ok s' /\ hdr s' = hdr s /\ regs s' id = None /\ forall j, j <> id -> regs s' j = regs s j.
Proof.
  unfold wipe. destruct (regs s id) as [e|] eqn:E; [|exists s; auto]. destruct (del_null (Z.to_nat ENTRIES) 0 (hdr s) e) as (e' & -> & T). cbn [rbind]. eexists. split; [reflexivity|].
  split; [rewrite del_hdr; reflexivity|]. unfold region_del. cbn [regs]. rewrite zupd_same. destruct (has_ref (Z.to_nat ENTRIES) 0 e') eqn:H.
  { exfalso. apply has_ref_iff in H as (j & H & K). apply K. rewrite T. rewrite ENT in *. destruct ((0 <=? j) && (j <? 0 + 524288)) eqn:Q; [reflexivity|lia]. }
  cbn [regs]. split; [apply zupd_same|]. intros j N. rewrite !zupd_other by exact N. reflexivity.
Qed.
Lemma del_all_ok n : forall i s, exists s', del_all n i s = Ok s' /\ hdr s' = hdr s /\ (forall j, i <= j < i + Z.of_nat n -> regs s' j = None) /\ forall j, ~ i <= j < i + Z.of_nat n -> regs s' j = regs s j.
Proof.
  induction n as [|n IH]; intros i s; cbn [del_all]; [exists s; repeat split; intros; lia|]. destruct (wipe_ok i s) as (s1 & -> & H1 & H2 & H3). cbn [rbind].
  destruct (IH (i + 1) s1) as (s' & -> & K1 & K2 & K3). exists s'. split; [reflexivity|]. split; [congruence|]. split.
  - intros j Hj. destruct (Z.eq_dec j i) as [->|N]; [rewrite K3 by lia; exact H2|apply K2; lia].
  - intros j Hj. rewrite K3 by lia. apply H3. lia.
Qed.

Lemma rstep2_ok s L a : RInv s L -> rvalid2 L a -> exists r s', rstep2 a s = Ok (r, s') /\ RInv s' (rafter2 L a).
Proof.
  intros I V. destruct a as [a|a|a|a|]; cbn [rvalid2 rafter2 rstep2] in *.
  - exact (rstep_ok s L a I V).
  - rewrite (get_id_ok a V). cbn. eexists _, _. split; [reflexivity|]. apply (rinv_frame s); [apply setup_hdr|intros k; apply setup_tab|exact I].
  - unfold region_exist. rewrite (get_id_ok a V). cbn. eexists _, _. split; [reflexivity|exact I].
  - rewrite (get_id_ok a V). cbn. eexists _, _. split; [reflexivity|]. apply (rinv_frame s); [apply del_hdr|intros k; apply del_tab|exact I].
  - destruct (del_all_ok (Z.to_nat MAXREG) 0 s) as (s' & -> & H1 & H2 & H3). cbn. exists 0, s'. split; [reflexivity|]. constructor; try (intros; contradiction).
    intros k Hk N. exfalso. apply N. unfold tab. rewrite H2; [reflexivity|]. unfold MAXREG, ENTRIES. lia.
Qed.
Lemma rreach2_inv s L : rreach2 s L -> RInv s L.
Proof. induction 1 as [|s L a r s' R I V E]; [exact rinv_init|]. destruct (rstep2_ok s L a I V) as (r' & s1 & E1 & I1). congruence. Qed.
Lemma calls2 s L a : rreach2 s L -> rvalid2 L a -> exists r s', rstep2 a s = Ok (r, s') /\ rreach2 s' (rafter2 L a).
Proof. intros R V. destruct (rstep2_ok s L a (rreach2_inv s L R) V) as (r & s' & E & _). exists r, s'. split; [exact E|]. exact (rreach2_step s L a r s' R V E). Qed.
Lemma lookup2 s L p : rreach2 s L -> 0 <= p < 2 ^ 48 -> exists r s', rstep2 (R1 (RFind p)) s = Ok (r, s') /\
  ((exists x, In x L /\ inside x p /\ r = sb x) \/ (r = 0 /\ forall x, In x L -> ~ inside x p)).
Proof. intros R Hp. destruct (find_ok s L p (rreach2_inv s L R) Hp) as (r & s' & E & _ & _ & H). exists r, s'. split; assumption. Qed.

(** Does the region of [a] exist? *)
Definition there (s : rst) (a : Z) : Z := match regs s (a / TB) with Some _ => 1 | None => 0 end.
Lemma exist_is s a : 0 <= a < 2 ^ 48 -> rstep2 (RExist a) s = Ok (there s a, s).
Proof. intros H. cbn. unfold region_exist, there. rewrite (get_id_ok a H). cbn. destruct (regs s (a / TB)); reflexivity. Qed.
Lemma win a : window a = a / TB. Proof. reflexivity. Qed.
(** The entries of a region that are not NULL are those of the segments that use it. *)
Lemma uses_iff s L a : RInv s L -> 0 <= a < 2 ^ 48 -> uses L a <-> exists k, k / ENTRIES = a / TB /\ tab s k <> 0.
Proof.
  intros I Ha. change (2 ^ 48) with 281474976710656 in Ha. split.
  - intros (x & k & Hx & Hk & W). rewrite !win in W. destruct (i_ok _ _ I x Hx) as (O & _). pose proof O as (O1 & O2 & O3 & O4). change (2 ^ 48) with 281474976710656 in O2.
    exists (sb x / MB2 + k). assert (CV : cov x (sb x / MB2 + k)) by (unfold cov, MB2; lia). split.
    + rewrite <- step_slot, <- slot_region. exact W.
    + intros Z0. refine (i_none _ _ I (sb x / MB2 + k) _ Z0 x Hx CV). clear - O1 O2 O4 Hk. unfold MB2. lia.
  - intros (k & Ek & Z0). assert (K : 0 <= k < 134217728) by (clear - Ek Ha; unfold ENTRIES, TB in *; lia). destruct (i_some _ _ I k K Z0) as (x & Hx & _ & C).
    exists x, (k - sb x / MB2). split; [exact Hx|]. split; [clear - C; unfold cov, MB2 in *; lia|]. rewrite !win. change 2097152 with MB2. rewrite slot_region, step_slot. replace (sb x / MB2 + (k - sb x / MB2)) with k by lia. exact Ek.
Qed.
Lemma uses_there s L a : RInv s L -> 0 <= a < 2 ^ 48 -> uses L a -> there s a = 1.
Proof. intros I Ha U. apply (uses_iff s L a I Ha) in U as (k & E & N). unfold tab in N. unfold there. rewrite E in N. destruct (regs s (a / TB)); [reflexivity|contradiction]. Qed.
Lemma del_there s L a b : RInv s L -> 0 <= a < 2 ^ 48 -> 0 <= b < 2 ^ 48 ->
  (window b = window a -> (there (region_del (a / TB) s) b = 1 <-> uses L a)) /\ (window b <> window a -> there (region_del (a / TB) s) b = there s b).
Proof.
  intros I Ha Hb. rewrite !win. split; intros E; unfold there; [rewrite E|].
  - split.
    + intros H. apply (uses_iff s L a I Ha). unfold region_del in H. destruct (regs s (a / TB)) as [e|] eqn:R; [|rewrite R in H; discriminate].
      destruct (has_ref (Z.to_nat ENTRIES) 0 e) eqn:F; [|cbn [regs] in H; rewrite zupd_same in H; discriminate]. apply has_ref_iff in F as (j & J & N). rewrite ENT in J.
      exists (a / TB * ENTRIES + j). assert (Q : (a / TB * ENTRIES + j) / ENTRIES = a / TB) by (rewrite (Z.div_add_l (a / TB) ENTRIES j) by (unfold ENTRIES; lia); rewrite (Z.div_small j ENTRIES) by (unfold ENTRIES; lia); apply Z.add_0_r).
      split; [exact Q|]. unfold tab. rewrite Q, R. rewrite Z.add_comm, Z.mod_add by (unfold ENTRIES; lia). rewrite (Z.mod_small j ENTRIES) by (unfold ENTRIES; lia). exact N.
    + intros U. apply (uses_iff s L a I Ha) in U as (k & Ek & N). rewrite <- (del_tab (a / TB) s k) in N. unfold tab in N. rewrite Ek in N. destruct (regs (region_del (a / TB) s) (a / TB)); [reflexivity|contradiction].
  - unfold region_del. destruct (regs s (a / TB)) as [e|]; [|reflexivity]. destruct (has_ref _ _ _); [reflexivity|]. cbn [regs]. rewrite zupd_other by exact E. reflexivity.
Qed.
Lemma exists_iff s L a b s' r : rreach2 s L -> 0 <= a < 2 ^ 48 -> 0 <= b < 2 ^ 48 -> rstep2 (RDelReg a) s = Ok (r, s') -> exists v, rstep2 (RExist b) s' = Ok (v, s') /\
  (window b = window a -> (v = 1 /\ uses L a) \/ (v = 0 /\ ~ uses L a)) /\ (window b <> window a -> rstep2 (RExist b) s = Ok (v, s)).
Proof.
  intros R Ha Hb E. cbn in E. rewrite (get_id_ok a Ha) in E. cbn in E. injection E as _ <-. exists (there (region_del (a / TB) s) b). rewrite !exist_is by exact Hb. split; [reflexivity|].
  destruct (del_there s L a b (rreach2_inv s L R) Ha Hb) as (D1 & D2). split; intros W.
  - specialize (D1 W). assert (V : there (region_del (a / TB) s) b = 1 \/ there (region_del (a / TB) s) b = 0) by (unfold there; destruct (regs _ _); auto). destruct V as [V|V]; rewrite V in *; [left; tauto|right].
    split; [reflexivity|]. intros U. apply D1 in U. discriminate.
  - rewrite (D2 W). reflexivity.
Qed.
Lemma all_gone s L r s' : rreach2 s L -> rstep2 RDelAll s = Ok (r, s') -> forall a, 0 <= a < 2 ^ 48 -> rstep2 (RExist a) s' = Ok (0, s') /\ exists s'', rstep2 (R1 (RFind a)) s' = Ok (0, s'').
Proof.
  intros R E a Ha. split.
  - rewrite exist_is by exact Ha. cbn [rstep2] in E. destruct (del_all_ok (Z.to_nat MAXREG) 0 s) as (s1 & Es & H1 & H2 & H3). rewrite Es in E. cbn [rbind] in E. injection E as _ <-. unfold there. rewrite H2; [reflexivity|].
    change (2 ^ 48) with 281474976710656 in Ha. unfold MAXREG, TB. lia.
  - destruct (lookup2 s' [] a (rreach2_step s L RDelAll r s' R Logic.I E) Ha) as (v & s'' & F & [(x & [] & _)|(-> & _)]). eauto.
Qed.
(** The end of a default source: the table of its window is emptied. *)
Lemma clean_ok fuel base size s : 0 <= base -> 0 < size -> base + size <= 2 ^ 48 -> (base + size - 1) / TB = base / TB -> (2 <= fuel)%nat -> exists s', clean_loop fuel base (base + size) s = Ok s' /\
  hdr s' = hdr s /\ regs s' (base / TB) = None /\ forall j, j <> base / TB -> regs s' j = regs s j.
Proof.
  intros B S H W F. change (2 ^ 48) with 281474976710656 in H. destruct fuel as [|[|fuel]]; [lia|lia|]. cbn [clean_loop]. destruct (Z.ltb_spec base (base + size)); [|lia].
  rewrite get_id_ok by (unfold user; lia). cbn [rbind]. destruct (wipe_ok (base / TB) s) as (s1 & -> & K). cbn [rbind]. assert (A : add64 base TB = base + TB) by (apply add64_small; rewrite W64_val; unfold TB; lia).
  rewrite A. destruct (Z.ltb_spec (base + TB) (base + size)); [exfalso; clear - W S B H1; unfold TB in *; lia|]. exists s1. split; [reflexivity|exact K].
Qed.
Lemma cleanup_forgets s L x base size fuel : rreach s L -> In x L ->
  0 <= base -> 0 < size -> base + size <= 2 ^ 48 -> window (base + size - 1) = window base -> (2 <= fuel)%nat ->
  window (sb x) = window base -> exists s' s'' p, clean_loop fuel base (base + size) s = Ok s' /\ inside x p /\ rstep (RFind p) s' = Ok (0, s'').
Proof.
  intros R Hx B S H W F Wx. rewrite !win in *. pose proof (rreach_inv s L R) as I. destruct (clean_ok fuel base size s B S H W F) as (s' & E & H1 & H2 & H3).
  destruct (i_ok _ _ I x Hx) as ((O1 & O2 & O3 & O4) & _). change (2 ^ 48) with 281474976710656 in *.
  assert (U : user (sb x)) by (unfold user; lia). assert (T0 : tab s' (sb x / MB2) = 0) by (unfold tab; rewrite <- slot_region, Wx, H2; reflexivity).
  assert (PB : exists s'', rstep (RFind (sb x)) s' = Ok (0, s'')).
  { cbn [rstep]. unfold get_macro_bloc. destruct (rd_entry_ok (sb x) s' U) as (s1 & E1 & H4 & T1). rewrite E1. cbn [rbind]. rewrite T0. cbn [Z.eqb orb].
    destruct (Z.ltb_spec MB2 (sb x)) as [Q|Q]; [|exfalso; clear - Q O1; unfold MB2 in Q; lia]. cbn [andb]. assert (U2 : user (sb x - MB2)) by (clear - O1 O2 O3; unfold user, MB2; change (2 ^ 48) with 281474976710656; lia).
    destruct (rd_entry_ok (sb x - MB2) s1 U2) as (s2 & E2 & H5 & T2). rewrite E2. cbn [rbind]. rewrite T1. destruct (Z.eqb_spec (tab s' ((sb x - MB2) / MB2)) 0) as [Z0|Z0]; [eauto|].
    assert (TS : tab s' ((sb x - MB2) / MB2) = tab s ((sb x - MB2) / MB2)).
    { unfold tab in *. rewrite H3; [reflexivity|]. intros C. apply Z0. rewrite C, H2. reflexivity. }
    rewrite TS in *. assert (K : 0 <= (sb x - MB2) / MB2 < 134217728) by (clear - O1 O2 O3; unfold MB2; lia). destruct (i_some _ _ I _ K Z0) as (y & Hy & Ey & Cy). rewrite Ey.
    destruct (sb y <? sb x) eqn:L1; [|eauto]. unfold rd_hdr. rewrite H5, H4, H1, (i_hdr _ _ I y Hy). cbn [rbind]. destruct (i_ok _ _ I y Hy) as ((Y1 & Y2 & Y3 & Y4) & _). change (2 ^ 48) with 281474976710656 in *.
    rewrite add64_small by (clear - Y1 Y2 Y3; rewrite W64_val; lia). destruct (Z.ltb_spec (sb x) (sb y + ss y)) as [Q2|Q2]; [exfalso|eauto].
    destruct (i_apart _ _ I x y Hx Hy) as [->|A]; [rewrite Z.ltb_irrefl in L1; discriminate|]. apply Z.ltb_lt in L1. unfold apart in A. clear - A L1 Q2 O3. lia. }
  destruct PB as (s'' & PB). exists s', s'', (sb x). split; [exact E|]. split; [unfold inside; clear - O3; lia|exact PB].
Qed.
