(** Free lists as rings, and the statistics computed from them. *)
From Verif Require Import Word Res Mem SizeClassModel SizeClassProofs ChainModel Wp ChainInv ChainZip ChainList ChainFl ChainPrim ChainFind ChainSplit ChainMerge ChainOps ChainAlloc ChainFree ChainSpec ChainCore ChainCoreFree ChainStep ChainRealloc ChainQueue ChainRefill ChainFuel ChainTrace ChainEv ChainProps ChainWalk ChainCap ChainSrc ChainMore.
From Coq Require Import ZArith List Bool Lia Permutation.
Import ListNotations.
Open Scope Z_scope.

(** ** C39 *)
Lemma ring_fwd m h l : forall x fuel, dseg m x l h -> ~ In h l -> (length l < fuel)%nat -> ring fuel m 16 h (nxt m x) = Some l.
Proof.
  induction l as [|y l IH]; intros x fuel H N HF; (destruct fuel as [|fuel]; [cbn in HF; lia|]); cbn [dseg] in H.
  - destruct H as (H & _). cbn [ring]. rewrite H, Z.eqb_refl. reflexivity.
  - destruct H as (H1 & H2 & H3). cbn [ring]. rewrite H1. destruct (Z.eqb_spec y h) as [E|E]; [exfalso; apply N; left; exact E|].
    assert (K := IH y fuel H3 ltac:(intros K; apply N; right; exact K) ltac:(cbn in HF; lia)).
    unfold nxt in K. rewrite K. reflexivity.
Qed.
Lemma ring_bwd m h l : forall e fuel, dseg m h l e -> ~ In h l -> (length l < fuel)%nat -> ring fuel m 24 h (prv m e) = Some (rev l).
Proof.
  induction l as [|y l IH] using rev_ind; intros e fuel H N HF; (destruct fuel as [|fuel]; [lia|]).
  - cbn [dseg] in H. destruct H as (_ & H). cbn [ring]. rewrite H, Z.eqb_refl. reflexivity.
  - rewrite dseg_dsegf in H. apply dsegf_app in H as (H1 & H2). cbn [dsegf] in H2. destruct H2 as (_ & H2). rewrite <- dseg_dsegf in H1.
    cbn [ring]. rewrite H2. destruct (Z.eqb_spec y h) as [E|E]; [exfalso; apply N; apply in_or_app; right; left; exact E|].
    rewrite app_length in HF. cbn in HF.
    assert (K := IH y fuel H1 ltac:(intros K; apply N; apply in_or_app; left; exact K) ltac:(lia)).
    unfold prv in K. rewrite K, rev_app_distr. reflexivity.
Qed.

Lemma filed_class c i : 32 <= c < S63 -> (insert_class c = Ok i <-> filed c i).
Proof.
  intros H. unfold filed. destruct (Z.leb_spec c 2097152) as [L|L].
  - destruct (insert_small c ltac:(unfold MACRO_BLOC; lia)) as (j & E & Hj & Hlo & Hhi).
    assert (NT : forall k, 0 <= k <= 42 -> nth (Z.to_nat k) FREE_SIZES 0 = fsz k).
    { intros k Hk. change (nth (Z.to_nat k) FREE_SIZES 0) with (tabv FREE_SIZES k). apply FREE_SIZES_fsz. lia. }
    rewrite E. split.
    + intros K. injection K as <-. split; [lia|]. rewrite NT by lia. split; [lia|]. intros k Hk. rewrite NT by lia.
      assert (fsz (j + 1) <= fsz k) by (apply fsz_mono_le; lia). specialize (Hhi ltac:(lia)). lia.
    + intros (K1 & K2 & K3). f_equal. rewrite NT in K2 by lia. destruct (Z.lt_trichotomy i j) as [Q|[Q|Q]]; [exfalso|auto|exfalso].
      * specialize (K3 j ltac:(lia)). rewrite NT in K3 by lia. lia.
      * assert (fsz (j + 1) <= fsz i) by (apply fsz_mono_le; lia). specialize (Hhi ltac:(lia)). lia.
  - destruct (lookup_big c ltac:(unfold MACRO_BLOC; lia)) as (_ & K & _). rewrite K. split; [intros Q; injection Q; auto|intros ->; reflexivity].
Qed.

Lemma list_len g s o A F i : Good g s o A F -> 0 <= i < 48 -> (length (F i) <= length (frees A))%nat.
Proof.
  intros G Hi. assert (FL := iv_fl _ _ _ _ (co_inv _ _ _ _ _ (gd_core _ _ _ _ _ G))).
  rewrite <- (map_length fst (frees A)). apply NoDup_incl_length; [apply (fl_nodup _ _ _ _ FL i Hi)|].
  intros a Ha. apply (fl_in _ _ _ _ FL i a Hi) in Ha as (c & Ha & _). apply in_map_iff. exists (a, c). auto.
Qed.
Lemma frees_held g s o A F : Good g s o A F -> 32 * Z.of_nat (length (frees A)) <= held o.
Proof. intros G. rewrite (held_bytes _ _ (gd_segs _ _ _ _ _ G)). exact (frees_len _ _ _ _ (good_world _ _ _ _ _ G)). Qed.
Lemma head_out g s o A F i : Good g s o A F -> 0 <= i < 48 -> forall k, 0 <= k < 48 -> ~ In (flist g k) (F i).
Proof.
  intros G Hi k Hk Ha. assert (W := good_world _ _ _ _ _ G). assert (FL := iv_fl _ _ _ _ (co_inv _ _ _ _ _ (gd_core _ _ _ _ _ G))).
  apply (fl_in _ _ _ _ FL i _ Hi) in Ha as (c & Ha & _). destruct (frees_16 _ _ _ _ _ _ W Ha) as (_ & Q0 & sg & Q1 & Q2 & Q3).
  assert (D := wd_disj _ _ _ _ W). rewrite (wd_rng _ _ _ _ W) in D. apply FOP_app in D as (_ & _ & D).
  specialize (D (segr sg) (cpool g, POOL_SIZE) (in_map segr _ _ Q1) (or_introl eq_refl)). unfold disj2, segr, flist, POOL_SIZE in *. cbn [fst snd] in D. lia.
Qed.

Lemma lists_ok g s o : reach g s o -> forall i, 0 <= i < 48 -> exists l,
  ring (S (Z.to_nat (held o))) (smem s) 16 (list_head g i) (ld (smem s) (list_head g i + 16) 8) = Some l /\
  ring (S (Z.to_nat (held o))) (smem s) 24 (list_head g i) (ld (smem s) (list_head g i + 24) 8) = Some (rev l) /\
  NoDup l /\
  (forall a, In a l <-> exists r c, In r (segs o) /\ In (a, c) (free_in (smem s) r) /\ filed c i) /\
  (list_flag g (smem s) i = 0 <-> l = []).
Proof.
  intros R i Hi. destruct (reach_good _ _ _ R) as (A & F & G). assert (W := good_world _ _ _ _ _ G).
  assert (FL := iv_fl _ _ _ _ (co_inv _ _ _ _ _ (gd_core _ _ _ _ _ G))). exists (F i).
  assert (LL := list_len _ _ _ _ _ i G Hi). assert (FH := frees_held _ _ _ _ _ G).
  assert (NH := head_out _ _ _ _ _ i G Hi i Hi). assert (RG := fl_ring _ _ _ _ FL i Hi). change (list_head g i) with (flist g i).
  split; [apply (ring_fwd _ _ _ (flist g i)); [exact RG|exact NH|lia]|].
  split; [apply (ring_bwd _ _ _ (flist g i)); [exact RG|exact NH|lia]|].
  split; [exact (fl_nodup _ _ _ _ FL i Hi)|]. split.
  - intros a. rewrite (fl_in _ _ _ _ FL i a Hi). rewrite <- (all_free_eq _ _ _ _ _ G). unfold all_free. split.
    + intros (c & HF & HC). assert (HF' := HF). apply in_flat_map in HF as (r & H1 & H2). exists r, c. split; [exact H1|]. split; [exact H2|].
      apply filed_class; [|exact HC]. fold (all_free (smem s) o) in HF'. rewrite (all_free_eq _ _ _ _ _ G) in HF'.
      destruct (frees_16 _ _ _ _ _ _ W HF') as (_ & Q0 & sg & Q1 & Q2 & Q3). destruct (w_segok _ _ _ _ W _ Q1) as (J1 & J2 & _). rewrite S63_val. lia.
    + intros (r & c & H1 & H2 & HC). assert (HF : In (a, c) (flat_map (free_in (smem s)) (segs o))) by (apply in_flat_map; exists r; auto).
      exists c. split; [exact HF|]. apply filed_class; [|exact HC]. fold (all_free (smem s) o) in HF. rewrite (all_free_eq _ _ _ _ _ G) in HF.
      destruct (frees_16 _ _ _ _ _ _ W HF) as (_ & Q0 & sg & Q1 & Q2 & Q3). destruct (w_segok _ _ _ _ W _ Q1) as (J1 & J2 & _). rewrite S63_val. lia.
  - unfold list_flag. assert (K := fl_stat _ _ _ _ FL i Hi). unfold POOL_STATUS in K. rewrite K. destruct (F i); split; intros Q; try discriminate; reflexivity.
Qed.

(** ** C40 *)
Lemma sum_disjoint n : forall l lo hi, (length l <= n)%nat -> ForallOrdPairs disj2 l -> lo <= hi ->
  (forall x z, In (x, z) l -> lo <= x /\ 0 < z /\ x + z <= hi) -> total l <= hi - lo.
Proof.
  induction n as [|n IH]; intros l lo hi HL HD H HB.
  - destruct l; [cbn; lia|cbn in HL; lia].
  - destruct l as [|[x z] l]; [cbn; lia|]. cbn [length] in HL. inversion HD as [|? ? D1 D2]; subst. rewrite Forall_forall in D1.
    assert (B0 := HB x z (or_introl eq_refl)).
    set (f := fun '(y, t) => y + t <=? x).
    assert (P : total l = total (filter f l) + total (filter (fun r => negb (f r)) l)).
    { clear. induction l as [|r l IH]; [reflexivity|]. cbn [filter]. destruct (f r); cbn [negb]; unfold total in *; cbn [map fold_right]; lia. }
    assert (FOPF : forall h, ForallOrdPairs disj2 (filter h l)).
    { intros h. clear - D2. induction D2 as [|r l H1 H2 IH]; [constructor|]. cbn [filter]. destruct (h r); [|exact IH]. constructor; [|exact IH].
      rewrite Forall_forall in *. intros y Hy. apply filter_In in Hy as (Hy & _). auto. }
    assert (LF : forall h, (length (filter h l) <= length l)%nat).
    { intros h. clear. induction l as [|r l IH]; [auto|]. cbn [filter]. destruct (h r); cbn [length]; lia. }
    assert (L1 := IH (filter f l) lo x). assert (L2 := IH (filter (fun r => negb (f r)) l) (x + z) hi).
    assert (T1 : total (filter f l) <= x - lo).
    { apply L1; [specialize (LF f); lia|apply FOPF|lia|]. intros y t HI. apply filter_In in HI as (HI & HT). unfold f in HT.
      specialize (HB y t (or_intror HI)). lia. }
    assert (T2 : total (filter (fun r => negb (f r)) l) <= hi - (x + z)).
    { apply L2; [specialize (LF (fun r => negb (f r))); lia|apply FOPF|lia|]. intros y t HI. apply filter_In in HI as (HI & HT). unfold f in HT.
      specialize (HB y t (or_intror HI)). specialize (D1 _ HI). unfold disj2 in D1. cbn [fst snd] in D1. lia. }
    unfold total in *. cbn [map fold_right snd]. lia.
Qed.

Definition zmax (l : list Z) : Z := fold_right Z.max 0 l.

(** Values of the statistics over a list of pieces. *)
Definition stat_add (r : stat) (c : Z) : stat :=
  mkStat (st_nb r + 1) (add64 (st_bytes r) c) (if st_max r <? c then c else st_max r) (if c <? st_min r then c else st_min r).

Lemma stat_list_run g s o A F i (SZ : Z -> Z) : Good g s o A F -> 0 <= i < 48 ->
  (forall a, In a (F i) -> exists c, In (a, c) (frees A) /\ SZ a = c) ->
  forall l x r fuel, dseg (smem s) x l (flist g i) -> incl l (F i) -> (length l < fuel)%nat ->
  stat_list fuel (flist g i) (nxt (smem s) x) r s = Ok (fold_left (fun r a => stat_add r (SZ a)) l r, s).
Proof.
  intros G Hi HSZ. assert (W := good_world _ _ _ _ _ G). induction l as [|y l IH]; intros x r fuel HD HI HF; (destruct fuel as [|fuel]; [cbn in HF; lia|]); cbn [dseg] in HD.
  - destruct HD as (HD & _). cbn [stat_list fold_left]. rewrite HD, Z.eqb_refl. reflexivity.
  - destruct HD as (H1 & H2 & H3). cbn [stat_list fold_left]. rewrite H1. assert (HY : In y (F i)) by (apply HI; left; reflexivity).
    destruct (Z.eqb_spec y (flist g i)) as [E|E]; [exfalso; rewrite E in HY; exact (head_out _ _ _ _ _ i G Hi i Hi HY)|].
    destruct (HSZ y HY) as (c & HC & EC). destruct (frees_zip _ _ _ HC) as (S1 & b & zz & l1 & l2 & S2 & EA & Ew).
    assert (W0 := W). rewrite EA in W0.
    destruct (world_chunk _ _ _ _ _ _ _ _ _ _ _ _ W0 eq_refl) as (Y1 & Y2 & (Y3 & Y4 & Y5) & Y6 & Y7 & Y8 & Y9 & Y10 & Y11 & _).
    unfold get_size, get_next, bind, loadn. rewrite (accb_intro _ b zz) by (try exact Y11; cbn; lia). cbn [rbind].
    rewrite (accb_intro _ b zz) by (try exact Y11; cbn; lia). cbn [rbind].
    replace (ld (smem s) y 7) with c by (rewrite Ew; symmetry; exact Y3).
    fold (nxt (smem s) y). rewrite IH; [|exact H3|intros a Ha; apply HI; right; exact Ha|cbn in HF; lia].
    unfold stat_add at 3. rewrite EC. reflexivity.
Qed.

Fixpoint cat_lists (F : Z -> list Z) (n : nat) (i : Z) : list Z :=
  match n with O => [] | S n' => F i ++ cat_lists F n' (i + 1) end.

Lemma stat_lists_run g s o A F (SZ : Z -> Z) fuel : Good g s o A F -> held o < Z.of_nat fuel ->
  (forall i a, 0 <= i < 48 -> In a (F i) -> exists c, In (a, c) (frees A) /\ SZ a = c) ->
  forall n i r, 0 <= i -> i + Z.of_nat n <= 48 ->
  stat_lists fuel g n i r s = Ok (fold_left (fun r a => stat_add r (SZ a)) (cat_lists F n i) r, s).
Proof.
  intros G HF HSZ. assert (W := good_world _ _ _ _ _ G). assert (FL := iv_fl _ _ _ _ (co_inv _ _ _ _ _ (gd_core _ _ _ _ _ G))).
  assert (FH := frees_held _ _ _ _ _ G).
  induction n as [|n IH]; intros i r Hi Hn; cbn [stat_lists cat_lists]; [reflexivity|].
  unfold bind at 1. unfold get_next at 1. unfold loadn. rewrite (accb_intro _ (cpool g) POOL_SIZE); [|rewrite (wd_rng _ _ _ _ W); apply in_or_app; right; left; reflexivity|unfold flist; lia|change (Z.of_nat 8) with 8; unfold flist, POOL_SIZE; lia].
  cbn [rbind]. fold (nxt (smem s) (flist g i)). unfold bind at 1. rewrite (stat_list_run g s o A F i SZ G ltac:(lia) (fun a => HSZ i a ltac:(lia)) (F i) (flist g i)).
  - cbn [rbind]. rewrite IH by lia. rewrite fold_left_app. reflexivity.
  - apply (fl_ring _ _ _ _ FL); lia.
  - apply incl_refl.
  - assert (LL := list_len _ _ _ _ _ i G ltac:(lia)). lia.
Qed.

Lemma stat_fold (SZ : Z -> Z) l : forall r, 0 <= st_bytes r -> 0 <= st_max r -> st_min r = -1 -> (forall a, In a l -> 0 <= SZ a) ->
  st_bytes r + fold_right Z.add 0 (map SZ l) < W64 ->
  fold_left (fun r a => stat_add r (SZ a)) l r =
  mkStat (st_nb r + Z.of_nat (length l)) (st_bytes r + fold_right Z.add 0 (map SZ l)) (Z.max (st_max r) (zmax (map SZ l))) (-1).
Proof.
  induction l as [|a l IH]; intros r H1 H2 H3 H4 H5; cbn [fold_left map fold_right zmax length] in *.
  - destruct r as [a b c d]. cbn in *. subst d. f_equal; lia.
  - assert (P : 0 <= SZ a) by (apply H4; left; reflexivity).
    assert (P2 : 0 <= fold_right Z.add 0 (map SZ l)).
    { clear - H4. induction l as [|b l IH]; cbn; [lia|]. assert (0 <= SZ b) by (apply H4; right; left; reflexivity).
      assert (0 <= fold_right Z.add 0 (map SZ l)) by (apply IH; intros c [Hc|Hc]; apply H4; [left; exact Hc|right; right; exact Hc]). lia. }
    assert (EB : st_bytes (stat_add r (SZ a)) = st_bytes r + SZ a) by (cbn; apply add64_small; lia).
    assert (EM : st_max (stat_add r (SZ a)) = Z.max (st_max r) (SZ a)) by (cbn; destruct (st_max r <? SZ a) eqn:EE; lia).
    assert (EN : st_min (stat_add r (SZ a)) = -1) by (cbn; rewrite H3; destruct (SZ a <? -1) eqn:EE; lia).
    rewrite IH; [|rewrite EB; lia|rewrite EM; lia|exact EN|intros b Hb; apply H4; right; exact Hb|rewrite EB; lia].
    rewrite EB, EM. cbn [stat_add st_nb]. unfold zmax. cbn [fold_right]. f_equal; lia.
Qed.

Lemma assoc_size (l : list (Z * Z)) : NoDup (map fst l) -> exists SZ, forall a c, In (a, c) l -> SZ a = c.
Proof.
  intros ND. exists (fun a => match find (fun r => fst r =? a) l with Some r => snd r | None => 0 end).
  induction l as [|[x y] l IH]; intros a c HI; [contradiction|]. cbn [map fst] in ND. inversion ND as [|? ? N1 N2]; subst. cbn [find fst].
  destruct (Z.eqb_spec x a) as [->|E].
  - destruct HI as [HI|HI]; [injection HI as <-; reflexivity|]. exfalso. apply N1. apply in_map_iff. exists (a, c). auto.
  - destruct HI as [HI|HI]; [congruence|]. exact (IH N2 a c HI).
Qed.

Lemma cells_disj l : forall m a pv, cks m a pv l -> ForallOrdPairs disj2 (frees_from a l).
Proof.
  induction l as [|[c k] l IH]; intros m a pv H; cbn [frees_from cks] in *; [constructor|]. destruct H as (H1 & H2 & H3 & H4 & H5).
  destruct k; cbn [app]; try exact (IH _ _ _ H5). constructor; [|exact (IH _ _ _ H5)]. apply Forall_forall. intros (w & t) HI.
  assert (R := frees_from_range _ _ _ _ _ _ H5 HI). left. cbn [fst snd]. lia.
Qed.
Lemma frees_disj g r m A : World g r m A -> ForallOrdPairs disj2 (frees A).
Proof.
  intros W. assert (D := wd_disj _ _ _ _ W). rewrite (wd_rng _ _ _ _ W) in D. apply FOP_app in D as (D & _ & _).
  assert (S := wd_seg _ _ _ _ W). rewrite Forall_forall in S. clear W. unfold frees.
  induction A as [|sg A IH]; cbn [flat_map map] in *; [constructor|]. inversion D as [|? ? D1 D2]; subst.
  assert (IH' := IH D2 (fun x Hx => S x (or_intror Hx))). apply FOP_app. split; [|split; [exact IH'|]].
  - destruct (S sg (or_introl eq_refl)) as (_ & _ & _ & _ & _ & K & _). eapply cells_disj. exact K.
  - intros (w & t) (w' & t') H1 H2. apply in_flat_map in H2 as (sg' & H2 & H3).
    destruct (S sg (or_introl eq_refl)) as (_ & _ & E1 & _ & _ & K1 & _). destruct (S sg' (or_intror H2)) as (_ & _ & E2 & _ & _ & K2 & _).
    assert (R1 := frees_from_range _ _ _ _ _ _ K1 H1). assert (R2 := frees_from_range _ _ _ _ _ _ K2 H3).
    rewrite Forall_forall in D1. specialize (D1 (segr sg') (in_map segr _ _ H2)). unfold disj2, segr in *. cbn [fst snd] in *. lia.
Qed.

Lemma in_cat F n : forall i a, In a (cat_lists F n i) <-> exists k, i <= k < i + Z.of_nat n /\ In a (F k).
Proof.
  induction n as [|n IH]; intros i a; cbn [cat_lists].
  - split; [intros []|intros (k & Hk & _); lia].
  - rewrite in_app_iff, IH. split.
    + intros [H|(k & Hk & H)]; [exists i; split; [lia|exact H]|exists k; split; [lia|exact H]].
    + intros (k & Hk & H). destruct (Z.eq_dec k i) as [->|]; [left; exact H|right; exists k; split; [lia|exact H]].
Qed.
Lemma nodup_app {T} (l1 l2 : list T) : NoDup l1 -> NoDup l2 -> (forall x, In x l1 -> ~ In x l2) -> NoDup (l1 ++ l2).
Proof.
  intros H1 H2 H. induction H1 as [|x l N1 N2 IH]; [exact H2|]. cbn [app]. constructor.
  - rewrite in_app_iff. intros [K|K]; [contradiction|]. exact (H x (or_introl eq_refl) K).
  - apply IH. intros y Hy. apply H. right. exact Hy.
Qed.
Lemma cat_nodup F n : forall i, (forall k, i <= k < i + Z.of_nat n -> NoDup (F k)) ->
  (forall k k' a, i <= k < i + Z.of_nat n -> i <= k' < i + Z.of_nat n -> In a (F k) -> In a (F k') -> k = k') -> NoDup (cat_lists F n i).
Proof.
  induction n as [|n IH]; intros i H1 H2; cbn [cat_lists]; [constructor|]. apply nodup_app.
  - apply H1. lia.
  - apply IH; [intros k Hk; apply H1; lia|]. intros k k' a Hk Hk'. apply H2; lia.
  - intros a Ha Hb. apply in_cat in Hb as (k & Hk & Hb). assert (i = k) by (apply (H2 i k a); [lia|lia|exact Ha|exact Hb]). lia.
Qed.
Lemma FOP_filter {T} (R : T -> T -> Prop) f l : ForallOrdPairs R l -> ForallOrdPairs R (filter f l).
Proof.
  induction 1 as [|r l H1 H2 IH]; [constructor|]. cbn [filter]. destruct (f r); [|exact IH]. constructor; [|exact IH].
  rewrite Forall_forall in *. intros y Hy. apply filter_In in Hy as (Hy & _). auto.
Qed.
Lemma disj_nodup (l : list (Z * Z)) : ForallOrdPairs disj2 l -> (forall a c, In (a, c) l -> 0 < c) -> NoDup (map fst l).
Proof.
  induction 1 as [|r l H1 H2 IH]; intros HP; cbn [map]; [constructor|]. constructor; [|apply IH; intros; eapply HP; right; eauto].
  intros K. apply in_map_iff in K as ((a & c) & K1 & K2). rewrite Forall_forall in H1. specialize (H1 _ K2). destruct r as [a' c'].
  assert (P1 := HP a' c' (or_introl eq_refl)). assert (P2 := HP a c (or_intror K2)). unfold disj2 in H1. cbn [fst snd] in *. lia.
Qed.
Lemma zmax_perm l l' : Permutation l l' -> zmax l = zmax l'.
Proof. induction 1; unfold zmax in *; cbn [fold_right] in *; lia. Qed.
Lemma sum_perm l l' : Permutation l l' -> fold_right Z.add 0 l = fold_right Z.add 0 l'.
Proof. induction 1; cbn [fold_right] in *; lia. Qed.

(** The free pieces of at most 2 MB. *)
Definition small_free (m : mem) (o : obs) : list (Z * Z) := filter (fun r => snd r <=? 2097152) (all_free m o).

Lemma stat_exact g s o fuel : reach g s o -> held o < Z.of_nat fuel ->
  let L := small_free (smem s) o in
  chain_get_stat fuel g s = Ok (mkStat (Z.of_nat (length L)) (total L) (zmax (map snd L)) 0, s).
Proof.
  intros R HF L. destruct (reach_good _ _ _ R) as (A & F & G). assert (W := good_world _ _ _ _ _ G).
  assert (FL := iv_fl _ _ _ _ (co_inv _ _ _ _ _ (gd_core _ _ _ _ _ G))).
  assert (DJ := frees_disj _ _ _ _ W).
  assert (BD : forall a c, In (a, c) (frees A) -> 0 <= a /\ 32 <= c /\ a + c <= AMAX).
  { intros a c HI. destruct (frees_16 _ _ _ _ _ _ W HI) as (_ & Q0 & sg & Q1 & Q2 & Q3). destruct (w_segok _ _ _ _ W _ Q1) as (J1 & J2 & _). lia. }
  assert (NDF : NoDup (map fst (frees A))) by (apply disj_nodup; [exact DJ|intros a c HI; specialize (BD a c HI); lia]).
  destruct (assoc_size _ NDF) as (SZ & HSZ).
  assert (HC : forall i a, 0 <= i < 48 -> In a (F i) -> exists c, In (a, c) (frees A) /\ SZ a = c).
  { intros i a Hi Ha. apply (fl_in _ _ _ _ FL i a Hi) in Ha as (c & H1 & H2). exists c. split; [exact H1|]. exact (HSZ _ _ H1). }
  assert (EL : L = filter (fun r => snd r <=? 2097152) (frees A)) by (unfold L, small_free; rewrite (all_free_eq _ _ _ _ _ G); reflexivity).
  assert (CLS : forall a i, 0 <= i < 48 -> In a (F i) -> exists c, In (a, c) (frees A) /\ filed c i).
  { intros a i Hi Ha. apply (fl_in _ _ _ _ FL i a Hi) in Ha as (c & H1 & H2). exists c. split; [exact H1|]. apply filed_class; [|exact H2].
    specialize (BD a c H1). rewrite S63_val. lia. }
  assert (PM : Permutation (cat_lists F 44 0) (map fst L)).
  { apply NoDup_Permutation.
    - apply cat_nodup; [intros k Hk; apply (fl_nodup _ _ _ _ FL); lia|]. intros k k' a Hk Hk' H1 H2.
      apply (fl_in _ _ _ _ FL k a ltac:(lia)) in H1 as (c & H1 & C1). apply (fl_in _ _ _ _ FL k' a ltac:(lia)) in H2 as (c' & H2 & C2).
      assert (c = c') by (rewrite <- (HSZ _ _ H1); apply (HSZ _ _ H2)). subst c'. congruence.
    - rewrite EL. apply disj_nodup; [apply FOP_filter; exact DJ|]. intros a c HI. apply filter_In in HI as (HI & _). specialize (BD a c HI). lia.
    - intros a. rewrite in_cat. split.
      + intros (k & Hk & Ha). destruct (CLS a k ltac:(lia) Ha) as (c & H1 & H2). apply in_map_iff. exists (a, c). split; [reflexivity|].
        rewrite EL. apply filter_In. split; [exact H1|]. unfold filed in H2. cbn [snd]. destruct (c <=? 2097152); [reflexivity|lia].
      + intros Ha. apply in_map_iff in Ha as ((a' & c) & E & Ha). cbn in E. subst a'. rewrite EL in Ha. apply filter_In in Ha as (H1 & H2). cbn [snd] in H2.
        specialize (BD a c H1). destruct (filing_sound c ltac:(unfold MACRO_BLOC; lia)) as (j & K1 & K2 & _).
        exists j. split; [lia|]. apply (fl_in _ _ _ _ FL j a ltac:(lia)). exists c. auto. }
  assert (MS : map SZ (map fst L) = map snd L).
  { rewrite map_map. apply map_ext_in. intros (a & c) HI. rewrite EL in HI. apply filter_In in HI as (HI & _). exact (HSZ _ _ HI). }
  assert (TB : total L <= AMAX).
  { assert (K := sum_disjoint (length L) L 0 AMAX). rewrite Z.sub_0_r in K. apply K; [lia| |lia|].
    - rewrite EL. apply FOP_filter. exact DJ.
    - intros x z HI. rewrite EL in HI. apply filter_In in HI as (HI & _). specialize (BD x z HI). lia. }
  assert (SM : fold_right Z.add 0 (map SZ (cat_lists F 44 0)) = total L).
  { rewrite (sum_perm _ _ (Permutation_map SZ PM)), MS. reflexivity. }
  unfold chain_get_stat. unfold bind at 1. replace (Z.to_nat (nb_free_lists FREE_SIZES)) with 44%nat by (rewrite nb_default; reflexivity).
  rewrite (stat_lists_run g s o A F SZ fuel G HF HC 44 0) by (cbn; lia).
  cbn [rbind]. rewrite stat_fold; cbn [st_nb st_bytes st_max st_min]; [|lia|lia|reflexivity| |rewrite SM, W64_val; lia].
  - cbn [st_nb st_bytes st_max st_min Z.eqb]. unfold ret. do 2 f_equal.
    assert (LN : length (cat_lists F 44 0) = length L) by (rewrite (Permutation_length PM), map_length; reflexivity).
    assert (MX : zmax (map SZ (cat_lists F 44 0)) = zmax (map snd L)) by (rewrite (zmax_perm _ _ (Permutation_map SZ PM)), MS; reflexivity).
    rewrite SM, MX, LN. assert (0 <= zmax (map snd L)) by (clear; unfold zmax; induction (map snd L); cbn [fold_right]; lia).
    change (-1 =? -1) with true. cbv iota. f_equal; lia.
  - intros a Ha. apply in_cat in Ha as (k & Hk & Ha). destruct (HC k a ltac:(lia) Ha) as (c & H1 & <-). specialize (BD a _ H1). lia.
Qed.
