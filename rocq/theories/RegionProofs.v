(** The registry: invariant of its histories. *)
From Verif Require Import Word Res RegionModel RegionSpec.
From Coq Require Import ZArith List Bool Lia.
Import ListNotations.
Open Scope Z_scope.

(** The table seen as one array indexed by address / 2 MB. *)
Definition tab (s : rst) (k : Z) : Z := match regs s (k / ENTRIES) with Some e => e (k mod ENTRIES) | None => 0 end.
Definition user (a : Z) : Prop := 0 <= a < 281474976710656.
Definition cov (x : seg) (k : Z) : Prop := sb x / MB2 <= k < sb x / MB2 + ss x / MB2.

Lemma slot_region a : a / TB = (a / MB2) / ENTRIES.
Proof. unfold TB, MB2, ENTRIES. rewrite Z.div_div by lia. reflexivity. Qed.
Lemma slot_index a : (a mod TB) / MB2 = (a / MB2) mod ENTRIES.
Proof. unfold TB, MB2, ENTRIES. lia. Qed.
Lemma get_id_ok a : user a -> get_id a = Ok (a / TB).
Proof. unfold user, get_id, TB, MAXREG. intros H. destruct ((0 <=? a / 1099511627776) && (a / 1099511627776 <? 256)) eqn:E; [reflexivity|]. lia. Qed.
Lemma zupd_same {A} (f : Z -> A) x v : zupd f x v x = v.
Proof. unfold zupd. rewrite Z.eqb_refl. reflexivity. Qed.
Lemma zupd_other {A} (f : Z -> A) x v y : y <> x -> zupd f x v y = f y.
Proof. intros H. unfold zupd. destruct (Z.eqb_spec y x); [contradiction|reflexivity]. Qed.

Lemma setup_some id s : exists e, regs (setup id s) id = Some e.
Proof. unfold setup. destruct (regs s id) eqn:E; [exists z; exact E|]. cbn. rewrite zupd_same. eauto. Qed.
Lemma setup_hdr id s : hdr (setup id s) = hdr s.
Proof. unfold setup. destruct (regs s id); reflexivity. Qed.
Lemma setup_tab id s k : tab (setup id s) k = tab s k.
Proof.
  unfold tab, setup. destruct (regs s id) eqn:E; [reflexivity|]. cbn. destruct (Z.eq_dec (k / ENTRIES) id) as [D|D].
  - rewrite D, zupd_same, E. reflexivity.
  - rewrite zupd_other by exact D. reflexivity.
Qed.

Lemma rd_entry_ok a s : user a -> exists s1, rd_entry a s = Ok (tab s (a / MB2), s1) /\ hdr s1 = hdr s /\ forall k, tab s1 k = tab s k.
Proof.
  intros U. unfold rd_entry. rewrite (get_id_ok a U). cbn [rbind]. destruct (setup_some (a / TB) s) as (e & E). rewrite E.
  exists (setup (a / TB) s). split; [|split; [apply setup_hdr|intros; apply setup_tab]].
  rewrite <- (setup_tab (a / TB) s (a / MB2)). unfold tab. rewrite <- slot_region, E, <- slot_index. reflexivity.
Qed.
Lemma wr_entry_ok a v s : user a -> exists s1, wr_entry a v s = Ok s1 /\ hdr s1 = hdr s /\
  forall k, tab s1 k = if k =? a / MB2 then v else tab s k.
Proof.
  intros U. unfold wr_entry. rewrite (get_id_ok a U). cbn [rbind]. destruct (setup_some (a / TB) s) as (e & E). rewrite E.
  eexists. split; [reflexivity|]. split; [apply setup_hdr|]. intros k. rewrite <- (setup_tab (a / TB) s k).
  unfold tab at 1. cbn [regs]. destruct (Z.eq_dec (k / ENTRIES) (a / TB)) as [D|D].
  - rewrite D, zupd_same. rewrite slot_index. destruct (Z.eq_dec (k mod ENTRIES) ((a / MB2) mod ENTRIES)) as [M|M].
    + rewrite M, zupd_same. rewrite slot_region in D. assert (k = a / MB2) as ->; [|rewrite Z.eqb_refl; reflexivity].
      rewrite (Z.div_mod k ENTRIES), (Z.div_mod (a / MB2) ENTRIES) by (unfold ENTRIES; lia). congruence.
    + rewrite zupd_other by exact M. unfold tab. rewrite D, E. destruct (Z.eqb_spec k (a / MB2)) as [K|K]; [congruence|reflexivity].
  - rewrite zupd_other by exact D. destruct (Z.eqb_spec k (a / MB2)) as [K|K]; [|reflexivity]. rewrite K, <- slot_region in D. congruence.
Qed.

Lemma step_slot b j : (b + j * MB2) / MB2 = b / MB2 + j.
Proof. unfold MB2. rewrite Z.div_add by lia. reflexivity. Qed.

Definition range (b j n k : Z) : bool := (b / MB2 + j <=? k) && (k <? b / MB2 + n).

Lemma set_loop_ok : forall fuel b n c j s, 0 < b -> b + n * MB2 <= 281474976710656 -> 0 <= j <= n -> n - j < Z.of_nat fuel ->
  hdr s b = Some (n * MB2, c) -> (forall k, range b j n k = true -> tab s k = 0) ->
  exists s1, set_loop fuel b (b + j * MB2) s = Ok s1 /\ hdr s1 = hdr s /\ forall k, tab s1 k = if range b j n k then b else tab s k.
Proof.
  induction fuel as [|fuel IH]; intros b n c j s Hb Hn Hj Hf Hh Ht; [lia|]. cbn [set_loop]. unfold rd_hdr. rewrite Hh. cbn [rbind].
  unfold MB2 in Hn. rewrite add64_small by (rewrite W64_val; unfold MB2; lia).
  destruct (Z.ltb_spec (b + j * MB2) (b + n * MB2)) as [L|L]; unfold MB2 in L.
  - destruct (rd_entry_ok (b + j * MB2) s) as (s1 & -> & H1 & T1); [unfold user, MB2; lia|]. cbn [rbind]. rewrite step_slot.
    rewrite Ht by (unfold range; lia). cbn [Z.eqb].
    destruct (wr_entry_ok (b + j * MB2) b s1) as (s2 & -> & H2 & T2); [unfold user, MB2; lia|]. cbn [rbind].
    rewrite step_slot in T2. rewrite add64_small by (rewrite W64_val; unfold MB2; lia).
    replace (b + j * MB2 + MB2) with (b + (j + 1) * MB2) by lia.
    destruct (IH b n c (j + 1) s2 Hb Hn) as (s3 & -> & H3 & T3).
    + lia.
    + lia.
    + rewrite H2, H1. exact Hh.
    + intros k Hk. rewrite T2, T1. unfold range in Hk. destruct (Z.eqb_spec k (b / MB2 + j)); [lia|]. apply Ht. unfold range. lia.
    + exists s3. split; [reflexivity|]. split; [congruence|]. intros k. rewrite T3, T2, T1. unfold range.
      destruct (Z.eqb_spec k (b / MB2 + j)) as [K|K].
      * destruct ((b / MB2 + (j + 1) <=? k) && (k <? b / MB2 + n)) eqn:E1; destruct ((b / MB2 + j <=? k) && (k <? b / MB2 + n)) eqn:E2; lia.
      * destruct ((b / MB2 + (j + 1) <=? k) && (k <? b / MB2 + n)) eqn:E1; destruct ((b / MB2 + j <=? k) && (k <? b / MB2 + n)) eqn:E2; lia.
  - exists s. split; [reflexivity|]. split; [reflexivity|]. intros k. unfold range. destruct ((b / MB2 + j <=? k) && (k <? b / MB2 + n)) eqn:E1; lia.
Qed.

Lemma unset_loop_ok : forall fuel b n c j s, 0 < b -> b + n * MB2 <= 281474976710656 -> 0 <= j <= n -> n - j < Z.of_nat fuel ->
  hdr s b = Some (n * MB2, c) ->
  exists s1, unset_loop fuel b (b + j * MB2) s = Ok s1 /\ hdr s1 = hdr s /\
    forall k, tab s1 k = if range b j n k && (tab s k =? b) then 0 else tab s k.
Proof.
  induction fuel as [|fuel IH]; intros b n c j s Hb Hn Hj Hf Hh; [lia|]. cbn [unset_loop]. unfold rd_hdr. rewrite Hh. cbn [rbind].
  unfold MB2 in Hn. rewrite add64_small by (rewrite W64_val; unfold MB2; lia).
  destruct (Z.ltb_spec (b + j * MB2) (b + n * MB2)) as [L|L]; unfold MB2 in L.
  - destruct (rd_entry_ok (b + j * MB2) s) as (s1 & -> & H1 & T1); [unfold user, MB2; lia|]. cbn [rbind]. rewrite step_slot.
    assert (W : exists s2, (if tab s (b / MB2 + j) =? b then wr_entry (b + j * MB2) 0 s1 else Ok s1) = Ok s2 /\ hdr s2 = hdr s /\
      forall k, tab s2 k = if (k =? b / MB2 + j) && (tab s k =? b) then 0 else tab s k).
    { destruct (Z.eqb_spec (tab s (b / MB2 + j)) b) as [B|B].
      - destruct (wr_entry_ok (b + j * MB2) 0 s1) as (s2 & -> & H2 & T2); [unfold user, MB2; lia|]. rewrite step_slot in T2.
        exists s2. split; [reflexivity|]. split; [congruence|]. intros k. rewrite T2, T1. destruct (Z.eqb_spec k (b / MB2 + j)) as [K|K]; [|reflexivity].
        rewrite K, B, Z.eqb_refl. reflexivity.
      - exists s1. split; [reflexivity|]. split; [exact H1|]. intros k. rewrite T1. destruct (Z.eqb_spec k (b / MB2 + j)) as [K|K]; [|reflexivity].
        destruct (Z.eqb_spec (tab s k) b) as [B'|B']; [|reflexivity]. rewrite K in B'. contradiction. }
    destruct W as (s2 & -> & H2 & T2). cbn [rbind]. rewrite add64_small by (rewrite W64_val; unfold MB2; lia).
    replace (b + j * MB2 + MB2) with (b + (j + 1) * MB2) by lia.
    destruct (IH b n c (j + 1) s2 Hb Hn) as (s3 & -> & H3 & T3); [lia|lia|rewrite H2; exact Hh|].
    exists s3. split; [reflexivity|]. split; [congruence|]. intros k. rewrite T3, T2. unfold range.
    destruct (Z.eqb_spec (tab s k) b) as [B|B].
    + rewrite !andb_true_r. destruct (Z.eqb_spec k (b / MB2 + j)) as [K|K].
      * destruct (((b / MB2 + (j + 1) <=? k) && (k <? b / MB2 + n)) && (0 =? b)) eqn:E1; destruct ((b / MB2 + j <=? k) && (k <? b / MB2 + n)) eqn:E2; lia.
      * destruct (((b / MB2 + (j + 1) <=? k) && (k <? b / MB2 + n)) && (tab s k =? b)) eqn:E1; destruct ((b / MB2 + j <=? k) && (k <? b / MB2 + n)) eqn:E2; lia.
    + rewrite !andb_false_r. destruct (((b / MB2 + (j + 1) <=? k) && (k <? b / MB2 + n)) && (tab s k =? b)) eqn:E1; [lia|reflexivity].
  - exists s. split; [reflexivity|]. split; [reflexivity|]. intros k. unfold range. destruct (((b / MB2 + j <=? k) && (k <? b / MB2 + n)) && (tab s k =? b)) eqn:E1; [lia|reflexivity].
Qed.

(** The invariant. *)
Record RInv (s : rst) (L : list seg) : Prop := {
  i_ok : forall x, In x L -> seg_ok x /\ sc x <> 0;
  i_apart : forall x y, In x L -> In y L -> x = y \/ apart x y;
  i_hdr : forall x, In x L -> hdr s (sb x) = Some (ss x, sc x);
  i_none : forall k, 0 <= k < 134217728 -> tab s k = 0 -> forall x, In x L -> ~ cov x k;
  i_some : forall k, 0 <= k < 134217728 -> tab s k <> 0 -> exists x, In x L /\ tab s k = sb x /\ cov x k }.

Lemma seg_pages x : seg_ok x -> exists n, ss x = n * MB2 /\ 0 < n /\ ss x / MB2 = n.
Proof. unfold seg_ok, MB2. intros (H1 & H2 & H3 & H4). exists (ss x / 2097152). lia. Qed.
Lemma same_seg : forall x y L, (forall x y, In x L -> In y L -> x = y \/ apart x y) -> (forall x, In x L -> seg_ok x /\ sc x <> 0) -> In x L -> In y L -> sb x = sb y -> x = y.
Proof.
  intros x y L A O Hx Hy E. destruct (A x y Hx Hy) as [H|H]; [exact H|]. destruct (O x Hx) as [(_ & _ & H1 & _) _]. destruct (O y Hy) as [(_ & _ & H2 & _) _].
  unfold apart in H. lia.
Qed.
(** Disjoint segments never share an entry. *)
Lemma cov_apart x y k : seg_ok x -> seg_ok y -> apart x y -> cov x k -> cov y k -> False.
Proof.
  intros X Y A C1 C2. destruct (seg_pages x X) as (n & N1 & N2 & N3). destruct (seg_pages y Y) as (m & M1 & M2 & M3).
  unfold cov, apart, MB2 in *. rewrite N3, N1, M3, M1 in *. lia.
Qed.

Lemma rinv_init : RInv r0 [].
Proof. constructor; intros; contradiction. Qed.

Lemma rinv_frame : forall s s' L, hdr s' = hdr s -> (forall k, tab s' k = tab s k) -> RInv s L -> RInv s' L.
Proof.
  intros s s' L H T I. destruct I. constructor; try assumption; intros.
  - rewrite H. apply i_hdr0. assumption.
  - rewrite T in *. eapply i_none0; eassumption.
  - rewrite T in *. apply i_some0; assumption.
Qed.

Lemma find_ok : forall s L p, RInv s L -> 0 <= p < 2 ^ 48 -> exists r s', get_macro_bloc p s = Ok (r, s') /\ hdr s' = hdr s /\ (forall k, tab s' k = tab s k) /\
  ((exists x, In x L /\ inside x p /\ r = sb x) \/ (r = 0 /\ forall x, In x L -> ~ inside x p)).
Proof.
  intros s L p I Hp. change (2 ^ 48) with 281474976710656 in Hp. unfold get_macro_bloc.
  destruct (rd_entry_ok p s Hp) as (s1 & -> & H1 & T1). cbn [rbind].
  assert (K : 0 <= p / MB2 < 134217728) by (unfold MB2; lia).
  assert (SL : forall x, In x L -> cov x (p / MB2) -> sb x <= p -> inside x p).
  { intros x Hx C Le. destruct (seg_pages x (proj1 (i_ok _ _ I x Hx))) as (n & N1 & N2 & N3). unfold cov, inside, MB2 in *. rewrite N3 in C. rewrite N1. lia. }
  assert (LOW : forall x, In x L -> 4194304 <= sb x) by (intros x Hx; destruct (i_ok _ _ I x Hx) as [(H & _) _]; exact H).
  destruct ((tab s (p / MB2) =? 0) || (p <? tab s (p / MB2))) eqn:B; cbn [andb].
  - destruct (Z.ltb_spec MB2 p) as [G|G].
    + assert (U2 : user (p - MB2)) by (unfold user, MB2 in *; lia). destruct (rd_entry_ok (p - MB2) s1 U2) as (s2 & -> & H2 & T2). cbn [rbind].
      rewrite T1. set (q := (p - MB2) / MB2) in *. assert (Q : q = p / MB2 - 1) by (unfold q, MB2; lia).
      assert (F : hdr s2 = hdr s /\ forall k, tab s2 k = tab s k) by (split; [congruence|intros; rewrite T2, T1; reflexivity]).
      assert (NX : forall x, In x L -> inside x p -> tab s q = sb x /\ sb x < p).
      { intros x Hx X. destruct (i_ok _ _ I x Hx) as [Ox _]. destruct (seg_pages x Ox) as (n & N1 & N2 & N3).
        assert (Cq : cov x q \/ cov x (p / MB2)). { unfold cov, inside, MB2 in *. rewrite N3. rewrite N1 in X. unfold q. lia. }
        assert (Np : ~ cov x (p / MB2)).
        { intros C. destruct (Z.eq_dec (tab s (p / MB2)) 0) as [E|E]; [exact (i_none _ _ I _ K E x Hx C)|].
          destruct (i_some _ _ I _ K E) as (y & Hy & Ey & Cy). destruct (i_apart _ _ I x y Hx Hy) as [<-|A].
          - unfold inside in X. lia.
          - exact (cov_apart _ _ _ Ox (proj1 (i_ok _ _ I y Hy)) A C Cy). }
        destruct Cq as [Cq|Cq]; [|contradiction].
        assert (Kq : 0 <= q < 134217728) by (unfold q, MB2 in *; lia).
        destruct (Z.eq_dec (tab s q) 0) as [E|E]; [exfalso; exact (i_none _ _ I _ Kq E x Hx Cq)|].
        destruct (i_some _ _ I _ Kq E) as (y & Hy & Ey & Cy). destruct (i_apart _ _ I x y Hx Hy) as [<-|A].
        - split; [exact Ey|]. unfold cov, inside, MB2 in *. rewrite N3 in *. lia.
        - exfalso. exact (cov_apart _ _ _ Ox (proj1 (i_ok _ _ I y Hy)) A Cq Cy). }
      destruct (Z.eqb_spec (tab s q) 0) as [Z0|Z0].
      * exists 0, s2. split; [reflexivity|]. split; [tauto|]. split; [tauto|]. right. split; [reflexivity|]. intros x Hx X.
        destruct (NX x Hx X) as [E _]. specialize (LOW x Hx). lia.
      * assert (Kq : 0 <= q < 134217728) by (unfold q, MB2 in *; lia).
        destruct (i_some _ _ I _ Kq Z0) as (y & Hy & Ey & Cy). rewrite Ey.
        destruct (Z.ltb_spec (sb y) p) as [Ly|Ly].
        -- unfold rd_hdr. rewrite (proj1 F), (i_hdr _ _ I y Hy). cbn [rbind].
           destruct (i_ok _ _ I y Hy) as [(O1 & O2 & O3 & O4) _]. change (2 ^ 48) with 281474976710656 in O2.
           rewrite add64_small by (rewrite W64_val; lia). destruct (Z.ltb_spec p (sb y + ss y)) as [P|P].
           ++ exists (sb y), s2. split; [reflexivity|]. split; [tauto|]. split; [tauto|]. left. exists y. split; [exact Hy|]. split; [unfold inside; lia|reflexivity].
           ++ exists 0, s2. split; [reflexivity|]. split; [tauto|]. split; [tauto|]. right. split; [reflexivity|]. intros x Hx X.
              destruct (NX x Hx X) as [E _]. rewrite Ey in E. assert (x = y) by (symmetry; exact (same_seg y x L (i_apart _ _ I) (i_ok _ _ I) Hy Hx E)). subst y. unfold inside in X. lia.
        -- exists 0, s2. split; [reflexivity|]. split; [tauto|]. split; [tauto|]. right. split; [reflexivity|]. intros x Hx X.
           destruct (NX x Hx X) as [E E2]. rewrite Ey in E. lia.
    + exists (tab s (p / MB2)), s1. split; [reflexivity|]. split; [exact H1|]. split; [exact T1|]. right. split.
      * destruct (Z.eq_dec (tab s (p / MB2)) 0) as [E|E]; [exact E|]. destruct (i_some _ _ I _ K E) as (y & Hy & Ey & Cy). specialize (LOW y Hy).
        unfold cov, MB2 in *. lia.
      * intros x Hx X. specialize (LOW x Hx). unfold inside, MB2 in *. lia.
  - exists (tab s (p / MB2)), s1. split; [reflexivity|]. split; [exact H1|]. split; [exact T1|]. left.
    assert (E : tab s (p / MB2) <> 0) by lia. destruct (i_some _ _ I _ K E) as (y & Hy & Ey & Cy). exists y. split; [exact Hy|]. split; [|exact Ey].
    apply SL; [exact Hy|exact Cy|lia].
Qed.

Lemma fuel_enough : forall n, 0 <= n -> n - 0 < Z.of_nat (loop_fuel (n * MB2)).
Proof. intros n H. unfold loop_fuel, MB2. rewrite Z.div_mul by lia. lia. Qed.

Lemma set_ok : forall s L c b sz, RInv s L -> rvalid L (RSet c b sz) -> exists r s', rstep (RSet c b sz) s = Ok (r, s') /\ RInv s' (mkSeg b sz c :: L).
Proof.
  intros s L c b sz I (O & C & A). destruct (seg_pages _ O) as (n & N1 & N2 & N3). cbn [ss] in *. unfold rstep, set_entry, rd_hdr. cbn [hdr regs]. rewrite zupd_same. cbn [rbind].
  set (s1 := mkR (regs s) _). assert (T1 : forall k, tab s1 k = tab s k) by reflexivity.
  pose proof O as (O1 & O2 & O3 & O4). cbn [sb ss] in *. change (2 ^ 48) with 281474976710656 in O2.
  destruct (set_loop_ok (loop_fuel sz) b n c 0 s1) as (s2 & E & H2 & T2).
  - lia.
  - lia.
  - lia.
  - rewrite N1. apply fuel_enough. lia.
  - unfold s1. cbn. rewrite zupd_same, N1. reflexivity.
  - intros k Hk. rewrite T1. assert (K : 0 <= k < 134217728) by (unfold range, MB2 in *; lia).
    destruct (Z.eq_dec (tab s k) 0) as [Z0|Z0]; [exact Z0|]. exfalso. destruct (i_some _ _ I k K Z0) as (y & Hy & Ey & Cy).
    apply (cov_apart _ _ k O (proj1 (i_ok _ _ I y Hy)) (A y Hy)); [|exact Cy]. unfold cov, range in *. cbn [sb ss].
    rewrite N3. clear - Hk. set (q := b / MB2) in *. lia.
  - replace (b + 0 * MB2) with b in E by lia. rewrite E. cbn [rbind]. exists 0, s2. split; [reflexivity|].
    assert (NB : forall y, In y L -> sb y <> b).
    { intros y Hy EE. destruct (i_ok _ _ I y Hy) as [(_ & _ & Y & _) _]. specialize (A y Hy). unfold apart in A. cbn [sb ss] in A. lia. }
    constructor.
    + intros x [<-|Hx]; [split; [exact O|exact C]|exact (i_ok _ _ I x Hx)].
    + intros x y [<-|Hx] [<-|Hy].
      * left; reflexivity.
      * right. exact (A y Hy).
      * right. specialize (A x Hx). unfold apart in *. lia.
      * exact (i_apart _ _ I x y Hx Hy).
    + intros x [<-|Hx]; rewrite H2; unfold s1; cbn [hdr sb ss sc].
      * rewrite zupd_same. reflexivity.
      * rewrite !zupd_other by (exact (NB x Hx)). exact (i_hdr _ _ I x Hx).
    + intros k K Z0 x [<-|Hx] Cx; rewrite T2, T1 in Z0; unfold range in Z0.
      * unfold cov in Cx. cbn [sb ss] in Cx. destruct ((b / MB2 + 0 <=? k) && (k <? b / MB2 + n)) eqn:R; lia.
      * destruct ((b / MB2 + 0 <=? k) && (k <? b / MB2 + n)) eqn:R; [lia|]. exact (i_none _ _ I k K Z0 x Hx Cx).
    + intros k K Z0; rewrite T2, T1 in *; unfold range in *. destruct ((b / MB2 + 0 <=? k) && (k <? b / MB2 + n)) eqn:R.
      * exists (mkSeg b sz c). split; [left; reflexivity|]. split; [reflexivity|]. unfold cov. cbn [sb ss]. lia.
      * destruct (i_some _ _ I k K Z0) as (y & Hy & Ey & Cy). exists y. split; [right; exact Hy|]. split; assumption.
Qed.

Lemma unset_ok : forall s L b, RInv s L -> rvalid L (RUnset b) -> exists r s', rstep (RUnset b) s = Ok (r, s') /\ RInv s' (filter (fun x => negb (sb x =? b)) L).
Proof.
  intros s L b I (x & Hx & E). subst b. destruct (i_ok _ _ I x Hx) as [O _]. destruct (seg_pages x O) as (n & N1 & N2 & N3).
  unfold rstep, unset_entry, rd_hdr. rewrite (i_hdr _ _ I x Hx). cbn [rbind]. pose proof O as (O1 & O2 & O3 & O4). change (2 ^ 48) with 281474976710656 in O2.
  destruct (unset_loop_ok (loop_fuel (ss x)) (sb x) n (sc x) 0 s) as (s2 & E & H2 & T2).
  - lia.
  - lia.
  - lia.
  - rewrite N1. apply fuel_enough. lia.
  - rewrite <- N1. exact (i_hdr _ _ I x Hx).
  - replace (sb x + 0 * MB2) with (sb x) in E by lia. rewrite E. cbn [rbind]. eexists 0, _. split; [reflexivity|].
    assert (F : forall y, In y (filter (fun x0 => negb (sb x0 =? sb x)) L) -> In y L /\ sb y <> sb x).
    { intros y Hy. apply filter_In in Hy. destruct Hy as [Hy1 Hy2]. split; [exact Hy1|]. lia. }
    assert (TB2 : forall k, 0 <= k < 134217728 -> tab s k = sb x -> cov x k).
    { intros k K Ek. destruct (i_some _ _ I k K) as (y & Hy & Ey & Cy); [lia|].
      rewrite Ek in Ey. pose proof (same_seg x y L (i_apart _ _ I) (i_ok _ _ I) Hx Hy Ey). subst y. exact Cy. }
    assert (T3 : forall k, 0 <= k < 134217728 -> tab s2 k = if tab s k =? sb x then 0 else tab s k).
    { intros k K. rewrite T2. destruct (Z.eqb_spec (tab s k) (sb x)) as [Ek|Ek]; [|rewrite andb_false_r; reflexivity].
      specialize (TB2 k K Ek). unfold cov, range in *. rewrite N3 in TB2. destruct (((sb x / MB2 + 0 <=? k) && (k <? sb x / MB2 + n)) && true) eqn:R; lia. }
    constructor.
    + intros y Hy. apply (i_ok _ _ I). apply F. exact Hy.
    + intros y z Hy Hz. apply (i_apart _ _ I); apply F; assumption.
    + intros y Hy. destruct (F y Hy) as [Hy1 Hy2]. cbn [hdr]. rewrite zupd_other by exact Hy2. rewrite H2. exact (i_hdr _ _ I y Hy1).
    + intros k K Z0 y Hy Cy. destruct (F y Hy) as [Hy1 Hy2]. change (tab s2 k = 0) in Z0. rewrite (T3 k K) in Z0.
      destruct (Z.eqb_spec (tab s k) (sb x)) as [Ek|Ek]; [|exact (i_none _ _ I k K Z0 y Hy1 Cy)].
      destruct (i_apart _ _ I x y Hx Hy1) as [<-|A]; [contradiction|].
      exact (cov_apart x y k O (proj1 (i_ok _ _ I y Hy1)) A (TB2 k K Ek) Cy).
    + intros k K Z0. change (tab s2 k <> 0) in Z0. change (exists y, In y (filter (fun x0 => negb (sb x0 =? sb x)) L) /\ tab s2 k = sb y /\ cov y k).
      rewrite (T3 k K) in *. destruct (Z.eqb_spec (tab s k) (sb x)) as [Ek|Ek]; [contradiction|].
      destruct (i_some _ _ I k K Z0) as (y & Hy & Ey & Cy). exists y. split; [|split; assumption]. apply filter_In. split; [exact Hy|]. lia.
Qed.

(** Removal of a chain. *)
Lemma del_loop_ok : forall n i c h e, c <> 0 -> 0 <= i -> (forall j, i <= j < i + Z.of_nat n -> e j <> 0 -> exists sz ch, h (e j) = Some (sz, ch)) ->
  exists e', del_loop n i c h e = Ok e' /\
    forall j, e' j = if (i <=? j) && (j <? i + Z.of_nat n) && negb (e j =? 0) && (match h (e j) with Some (_, ch) => ch =? c | None => false end) then 0 else e j.
Proof.
  induction n as [|n IH]; intros i c h e C Hi H.
  - exists e. split; [reflexivity|]. intros j. destruct ((i <=? j) && (j <? i + Z.of_nat 0)) eqn:E; [lia|reflexivity].
  - cbn [del_loop]. destruct (Z.eqb_spec c 0); [contradiction|]. destruct (Z.eqb_spec (e i) 0) as [E|E].
    + destruct (IH (i + 1) c h e C) as (e' & -> & T); [lia|intros j Hj; apply H; lia|]. exists e'. split; [reflexivity|]. intros j. rewrite T.
      destruct (Z.eq_dec j i) as [->|N].
      * rewrite E. cbn [Z.eqb negb]. rewrite !andb_false_r. reflexivity.
      * replace (i + 1 <=? j) with (i <=? j) by lia. replace (i + 1 + Z.of_nat n) with (i + Z.of_nat (S n)) by lia. reflexivity.
    + destruct (H i ltac:(lia) E) as (sz & ch & Hh). rewrite Hh.
      set (e1 := if ch =? c then zupd e i 0 else e).
      assert (E1 : forall j, j <> i -> e1 j = e j). { intros j N. unfold e1. destruct (ch =? c); [apply zupd_other; exact N|reflexivity]. }
      assert (E2 : e1 i = if ch =? c then 0 else e i). { unfold e1. destruct (ch =? c); [apply zupd_same|reflexivity]. }
      destruct (IH (i + 1) c h e1 C) as (e' & -> & T); [lia| |].
      { intros j Hj. rewrite E1 by lia. apply H. lia. }
      exists e'. split; [reflexivity|]. intros j. rewrite T. destruct (Z.eq_dec j i) as [->|N].
      * replace (i + 1 <=? i) with false by lia. cbn [andb]. rewrite Hh, E2.
        destruct (Z.eqb_spec (e i) 0); [contradiction|]. replace (i <=? i) with true by lia. replace (i <? i + Z.of_nat (S n)) with true by lia. reflexivity.
      * rewrite (E1 j N). replace (i + 1 <=? j) with (i <=? j) by lia. replace (i + 1 + Z.of_nat n) with (i + Z.of_nat (S n)) by lia. reflexivity.
Qed.

Lemma del_ok : forall s L a c, RInv s L -> rvalid L (RDel a c) -> exists r s', rstep (RDel a c) s = Ok (r, s') /\ RInv s' (filter (fun x => negb (sc x =? c)) L).
Proof.
  intros s L a c I (Ha & C & W). change (2 ^ 48) with 281474976710656 in Ha. unfold rstep, del_chain. rewrite (get_id_ok a Ha). cbn [rbind].
  assert (WK : forall x k, In x L -> sc x = c -> cov x k -> k / ENTRIES = a / TB).
  { intros x k Hx Ec Cx. destruct (W x Hx Ec) as [W1 W2]. destruct (i_ok _ _ I x Hx) as [O _]. destruct (seg_pages x O) as (n & N1 & N2 & N3).
    unfold window in *. change (2 ^ 40) with TB in *. rewrite !slot_region in *.
    assert (B1 : sb x / MB2 <= k) by apply Cx. assert (B2 : k <= (sb x + ss x - 1) / MB2).
    { destruct Cx as [_ Cx]. rewrite N3 in Cx. rewrite N1. clear - Cx N2. unfold MB2 in *. lia. }
    apply Z.div_le_mono with (c := ENTRIES) in B1; [|unfold ENTRIES; lia]. apply Z.div_le_mono with (c := ENTRIES) in B2; [|unfold ENTRIES; lia].
    apply Z.le_antisymm; [rewrite <- W2; exact B2|rewrite <- W1; exact B1]. }
  assert (SP : forall x, In x L -> cov x (sb x / MB2) /\ 0 <= sb x / MB2 < 134217728).
  { intros x Hx. destruct (i_ok _ _ I x Hx) as [O _]. destruct (seg_pages x O) as (n & N1 & N2 & N3). destruct O as (O1 & O2 & O3 & O4).
    change (2 ^ 48) with 281474976710656 in O2. unfold cov. rewrite N3. clear - O1 O2 N1 N2. rewrite N1 in O2. unfold MB2 in *. lia. }
  assert (K64 : 0 <= a / TB < 256) by (clear - Ha; unfold TB; lia).
  set (NN := Z.to_nat ENTRIES). assert (HN : Z.of_nat NN = ENTRIES) by (apply Z2Nat.id; discriminate). clearbody NN.
  assert (E2 : exists s', (match regs s (a / TB) with
      | Some e => rbind (del_loop NN 0 c (hdr s) e) (fun e' => Ok (mkR (zupd (regs s) (a / TB) (Some e')) (hdr s)))
      | None => Ok s end) = Ok s' /\ hdr s' = hdr s /\
      forall k, 0 <= k < 134217728 -> tab s' k = if (k / ENTRIES =? a / TB) && negb (tab s k =? 0) && (match hdr s (tab s k) with Some (_, ch) => ch =? c | None => false end) then 0 else tab s k).
  { destruct (regs s (a / TB)) as [e|] eqn:Er.
    - destruct (del_loop_ok NN 0 c (hdr s) e C ltac:(lia)) as (e' & E' & T).
      + intros j Hj Ej. rewrite HN in Hj. assert (Kj : tab s (a / TB * ENTRIES + j) = e j).
        { unfold tab. rewrite Z.div_add_l by (unfold ENTRIES; lia). rewrite (Z.div_small j ENTRIES) by lia. rewrite Z.add_0_r, Er.
          f_equal. rewrite Z.add_comm, Z.mod_add by (unfold ENTRIES; lia). apply Z.mod_small. lia. }
        assert (KK : 0 <= a / TB * ENTRIES + j < 134217728) by (clear - K64 Hj; unfold ENTRIES in *; lia).
        destruct (i_some _ _ I _ KK) as (y & Hy & Ey & _); [congruence|]. rewrite Kj in Ey. rewrite Ey, (i_hdr _ _ I y Hy). eauto.
      + rewrite E'. cbn [rbind]. eexists. split; [reflexivity|]. split; [reflexivity|]. intros k K. unfold tab. cbn [regs hdr].
        destruct (Z.eqb_spec (k / ENTRIES) (a / TB)) as [D|D].
        * rewrite D, zupd_same, Er, T. assert (0 <= k mod ENTRIES < ENTRIES) by (apply Z.mod_pos_bound; unfold ENTRIES; lia).
          rewrite HN. replace (0 <=? k mod ENTRIES) with true by lia. replace (k mod ENTRIES <? 0 + ENTRIES) with true by lia. reflexivity.
        * rewrite zupd_other by exact D. reflexivity.
    - exists s. split; [reflexivity|]. split; [reflexivity|]. intros k K. destruct (Z.eqb_spec (k / ENTRIES) (a / TB)) as [D|D]; [|reflexivity].
      assert (tab s k = 0) as -> by (unfold tab; rewrite D, Er; reflexivity). reflexivity. }
  destruct E2 as (s' & -> & H' & T'). cbn [rbind]. exists 0, s'. split; [reflexivity|].
  assert (F : forall y, In y (filter (fun x => negb (sc x =? c)) L) -> In y L /\ sc y <> c).
  { intros y Hy. apply filter_In in Hy. destruct Hy as [Hy1 Hy2]. split; [exact Hy1|]. lia. }
  (* entries: those of the segments of the chain become NULL *)
  assert (T3 : forall k, 0 <= k < 134217728 -> (tab s k = 0 /\ tab s' k = 0) \/
      exists y, In y L /\ tab s k = sb y /\ cov y k /\ (tab s' k = if sc y =? c then 0 else sb y)).
  { intros k K. rewrite (T' k K). destruct (Z.eq_dec (tab s k) 0) as [Z0|Z0].
    - left. rewrite Z0. cbn [Z.eqb negb]. rewrite andb_false_r. split; reflexivity.
    - right. destruct (i_some _ _ I k K Z0) as (y & Hy & Ey & Cy). exists y. split; [exact Hy|]. split; [exact Ey|]. split; [exact Cy|].
      rewrite Ey, (i_hdr _ _ I y Hy). rewrite Ey in Z0. destruct (Z.eqb_spec (sb y) 0); [contradiction|]. cbn [negb]. rewrite andb_true_r.
      destruct (Z.eqb_spec (sc y) c) as [Ec|Ec]; [|rewrite andb_false_r; reflexivity]. rewrite andb_true_r.
      destruct (Z.eqb_spec (k / ENTRIES) (a / TB)) as [D|D]; [reflexivity|]. exfalso. apply D. exact (WK y k Hy Ec Cy). }
  constructor.
  - intros y Hy. apply (i_ok _ _ I). apply F. exact Hy.
  - intros y z Hy Hz. apply (i_apart _ _ I); apply F; assumption.
  - intros y Hy. rewrite H'. apply (i_hdr _ _ I). apply F. exact Hy.
  - intros k K Z0 y Hy Cy. destruct (F y Hy) as [Hy1 Hy2]. destruct (T3 k K) as [[T0 _]|(z & Hz & Ez & Cz & Tz)]; [exact (i_none _ _ I k K T0 y Hy1 Cy)|].
    destruct (i_apart _ _ I y z Hy1 Hz) as [<-|A].
    + destruct (Z.eqb_spec (sc y) c); [contradiction|]. destruct (i_ok _ _ I y Hy1) as [(O1 & _) _]. lia.
    + exact (cov_apart y z k (proj1 (i_ok _ _ I y Hy1)) (proj1 (i_ok _ _ I z Hz)) A Cy Cz).
  - intros k K Z0. destruct (T3 k K) as [[_ T0]|(z & Hz & Ez & Cz & Tz)]; [contradiction|]. exists z.
    destruct (Z.eqb_spec (sc z) c) as [Ec|Ec]; [contradiction|]. split; [|split; [exact Tz|exact Cz]]. apply filter_In. split; [exact Hz|]. lia.
Qed.

Lemma rstep_ok : forall s L a, RInv s L -> rvalid L a -> exists r s', rstep a s = Ok (r, s') /\ RInv s' (rafter L a).
Proof.
  intros s L [c b sz|b|p|a c] I V; cbn [rafter].
  - exact (set_ok s L c b sz I V).
  - exact (unset_ok s L b I V).
  - destruct (find_ok s L p I V) as (r & s' & E & H & T & _). exists r, s'. split; [exact E|]. exact (rinv_frame s s' L H T I).
  - exact (del_ok s L a c I V).
Qed.

Lemma rreach_inv : forall s L, rreach s L -> RInv s L.
Proof.
  induction 1 as [|s L a r s' R I V E]; [exact rinv_init|]. destruct (rstep_ok s L a I V) as (r' & s1 & E1 & I1). congruence.
Qed.

Lemma lookup_exact : forall s L p, rreach s L -> 0 <= p < 2 ^ 48 -> exists r s', rstep (RFind p) s = Ok (r, s') /\
  ((exists x, In x L /\ inside x p /\ r = sb x) \/ (r = 0 /\ forall x, In x L -> ~ inside x p)).
Proof. intros s L p R Hp. destruct (find_ok s L p (rreach_inv s L R) Hp) as (r & s' & E & _ & _ & H). exists r, s'. split; assumption. Qed.

Lemma registry_calls : forall s L a, rreach s L -> rvalid L a -> exists r s', rstep a s = Ok (r, s') /\ rreach s' (rafter L a).
Proof.
  intros s L a R V. destruct (rstep_ok s L a (rreach_inv s L R) V) as (r & s' & E & _). exists r, s'. split; [exact E|].
  exact (rreach_step s L a r s' R V E).
Qed.

(** The header found through the registry names the chain. *)
Lemma lookup_owner : forall s L x p r s', rreach s L -> In x L -> inside x p -> 0 <= p < 2 ^ 48 -> rstep (RFind p) s = Ok (r, s') ->
  r = sb x /\ hdr s' r = Some (ss x, sc x).
Proof.
  intros s L x p r s' R Hx X Hp E. pose proof (rreach_inv s L R) as I.
  destruct (find_ok s L p I Hp) as (r1 & s1 & E1 & H1 & _ & D). cbn [rstep] in E. rewrite E1 in E. injection E as <- <-.
  destruct D as [(y & Hy & Y & ->)|[_ N]]; [|exfalso; exact (N x Hx X)].
  assert (x = y) as <-. { destruct (i_apart _ _ I x y Hx Hy) as [A|A]; [exact A|]. unfold apart, inside in *. lia. }
  split; [reflexivity|]. rewrite H1. exact (i_hdr _ _ I x Hx).
Qed.

(** Once a chain is destroyed no address leads to one of its segments. *)
Lemma destroy_forgets : forall s L a c r s' x p, rreach s L -> rvalid L (RDel a c) -> rstep (RDel a c) s = Ok (r, s') ->
  In x L -> sc x = c -> inside x p -> exists s'', rstep (RFind p) s' = Ok (0, s'').
Proof.
  intros s L a c r s' x p R V E Hx Ec X. pose proof (rreach_inv s L R) as I. pose proof (rreach_step s L _ r s' R V E) as R'.
  destruct (i_ok _ _ I x Hx) as [(O1 & O2 & _) _].
  assert (Hp : 0 <= p < 2 ^ 48) by (unfold inside in X; lia).
  destruct (lookup_exact s' _ p R' Hp) as (r1 & s1 & -> & [(y & Hy & Y & _)|[-> _]]); [|eauto].
  exfalso. cbn [rafter] in Hy. apply filter_In in Hy. destruct Hy as [Hy1 Hy2].
  destruct (i_apart _ _ I x y Hx Hy1) as [<-|A]; [lia|]. unfold apart, inside in *. lia.
Qed.

(** Concrete histories. *)
Fixpoint rplay (s : rst) (l : list rop) : option (list Z * rst) :=
  match l with
  | [] => Some ([], s)
  | a :: l => match rstep a s with Ok (r, s1) => match rplay s1 l with Some (rs, s2) => Some (r :: rs, s2) | None => None end | _ => None end
  end.
Definition rres (l : list rop) : option (list Z) := match rplay r0 l with Some (rs, _) => Some rs | None => None end.
Fixpoint rsegs (L : list seg) (l : list rop) : list seg := match l with [] => L | a :: l => rsegs (rafter L a) l end.
Fixpoint rvalids (L : list seg) (l : list rop) : Prop := match l with [] => True | a :: l => rvalid L a /\ rvalids (rafter L a) l end.
Lemma rplay_reach : forall l s L rs s', rreach s L -> rvalids L l -> rplay s l = Some (rs, s') -> rreach s' (rsegs L l).
Proof.
  induction l as [|a l IH]; intros s L rs s' R V E; cbn in *; [injection E as _ <-; exact R|]. destruct V as [V1 V2].
  destruct (rstep a s) as [[r s1]| | |] eqn:E1; try discriminate. destruct (rplay s1 l) as [[rs1 s2]|] eqn:E2; [|discriminate].
  injection E as _ <-. exact (IH s1 _ rs1 s2 (rreach_step s L a r s1 R V1 E1) V2 E2).
Qed.
Definition rend (l : list rop) : rst := match rplay r0 l with Some (_, s) => s | None => r0 end.
Lemma rend_reach : forall l, rvalids [] l -> (match rplay r0 l with Some _ => true | None => false end = true) -> rreach (rend l) (rsegs [] l).
Proof. intros l V E. unfold rend. destruct (rplay r0 l) as [[rs s]|] eqn:P; [|discriminate]. exact (rplay_reach l r0 [] rs s rreach_init V P). Qed.
Lemma rplay_snoc : forall l a s rs r, (match rplay s (l ++ [a]) with Some (x, _) => Some x | None => None end) = Some (rs ++ [r]) ->
  exists s1 s2, rplay s l = Some (rs, s1) /\ rstep a s1 = Ok (r, s2) /\ rplay s (l ++ [a]) = Some (rs ++ [r], s2).
Proof.
  induction l as [|b l IH]; intros a s rs r E; cbn [rplay app] in E |- *.
  - destruct (rstep a s) as [[r1 s1]| | |] eqn:E1; try discriminate. assert (E2 : [r1] = rs ++ [r]) by (cbn in E; congruence).
    destruct rs as [|x rs]; [|destruct rs; discriminate]. cbn in E2. injection E2 as ->. exists s, s1. repeat split. exact E1.
  - destruct (rstep b s) as [[r1 s1]| | |] eqn:E1; try discriminate. specialize (IH a s1).
    destruct (rplay s1 (l ++ [a])) as [[rs1 s2]|] eqn:E2; [|discriminate]. assert (E3 : r1 :: rs1 = rs ++ [r]) by congruence.
    destruct rs as [|x rs]; [destruct rs1; [|discriminate]; destruct l; cbn in E2;
      [destruct (rstep a s1) as [[? ?]| | |]; discriminate|destruct (rstep _ s1) as [[? ?]| | |]; [|discriminate..]; destruct (rplay _ (l ++ [a])) as [[? ?]|]; discriminate]|].
    cbn in E3. injection E3 as -> ->. destruct (IH rs r eq_refl) as (s3 & s4 & P1 & P2 & P3). exists s3, s4.
    rewrite P1. repeat split; [exact P2|]. injection P3 as ->. reflexivity.
Qed.
Lemma rend_step : forall l a rs r, rres (l ++ [a]) = Some (rs ++ [r]) -> rstep a (rend l) = Ok (r, rend (l ++ [a])).
Proof.
  intros l a rs r E. unfold rres in E. assert (E' : (match rplay r0 (l ++ [a]) with Some (x, _) => Some x | None => None end) = Some (rs ++ [r])) by exact E.
  destruct (rplay_snoc l a r0 rs r E') as (s1 & s2 & P1 & P2 & P3). unfold rend. rewrite P1, P3. exact P2.
Qed.
