(** Proofs about the size classes. *)
From Verif Require Import Word Res SizeClassModel.
From Coq Require Import ZArith List Bool Lia.
Import ListNotations.
Open Scope Z_scope.

(** Closed formula for the default table. *)
Definition fsz (i : Z) : Z :=
  if i <? 32 then 32 * (i + 1)
  else if i <=? 42 then 1024 * 2 ^ (i - 31)
  else -1.

Lemma forall_below (P : Z -> bool) (n : nat) :
  forallb P (map Z.of_nat (seq 0 n)) = true ->
  forall i, 0 <= i < Z.of_nat n -> P i = true.
Proof.
  intros H i Hi. rewrite forallb_forall in H. apply H.
  rewrite in_map_iff. exists (Z.to_nat i). split; [lia|].
  apply in_seq. lia.
Qed.

Lemma FREE_SIZES_fsz i : 0 <= i < 48 -> tabv FREE_SIZES i = fsz i.
Proof.
  intros H.
  assert (E : (tabv FREE_SIZES i =? fsz i) = true).
  { apply (forall_below (fun i => tabv FREE_SIZES i =? fsz i) 48); [vm_compute; reflexivity|lia]. }
  lia.
Qed.

Lemma tab_ok T i : 0 <= i < 48 -> tab T i = Ok (tabv T i).
Proof.
  intros H. unfold tab, NB_FREE_LIST.
  replace ((0 <=? i) && (i <? 48)) with true by lia. reflexivity.
Qed.

Lemma nb_default : nb_free_lists FREE_SIZES = 44.
Proof. reflexivity. Qed.
Lemma nb_mms : nb_free_lists MMS_FREE_SIZES = 44.
Proof. reflexivity. Qed.

Lemma fsz_lin i : i < 32 -> fsz i = 32 * (i + 1).
Proof. intros H. unfold fsz. destruct (Z.ltb_spec i 32); lia. Qed.

Lemma fsz_exp l : 0 <= l <= 11 -> fsz (31 + l) = 1024 * 2 ^ l.
Proof.
  intros H. unfold fsz.
  destruct (Z.ltb_spec (31 + l) 32).
  - assert (l = 0) by lia. subst. reflexivity.
  - destruct (Z.leb_spec (31 + l) 42); [|lia]. f_equal. f_equal. lia.
Qed.

Lemma fsz_top i : 43 <= i -> fsz i = -1.
Proof. intros H. unfold fsz. destruct (Z.ltb_spec i 32); [lia|]. destruct (Z.leb_spec i 42); lia. Qed.

Lemma fsz_mono i j : 0 <= i < j -> j <= 42 -> fsz i < fsz j.
Proof.
  intros H1 H2.
  assert (E : (fun j => forallb (fun i => fsz (Z.of_nat i) <? fsz j) (seq 0 (Z.to_nat j))) j = true).
  { apply (forall_below (fun j => forallb (fun i => fsz (Z.of_nat i) <? fsz j) (seq 0 (Z.to_nat j))) 43);
    [vm_compute; reflexivity|lia]. }
  cbv beta in E. rewrite forallb_forall in E. specialize (E (Z.to_nat i)).
  rewrite Z2Nat.id in E by lia. 
  assert (In (Z.to_nat i) (seq 0 (Z.to_nat j))) by (apply in_seq; lia).
  specialize (E H). lia.
Qed.

Lemma fsz_mono_le i j : 0 <= i <= j -> j <= 42 -> fsz i <= fsz j.
Proof.
  intros H1 H2. destruct (Z.eq_dec i j); [subst; lia|].
  assert (fsz i < fsz j) by (apply fsz_mono; lia). lia.
Qed.

Lemma fsz_42 : fsz 42 = MACRO_BLOC.
Proof. reflexivity. Qed.

Lemma fsz_pos i : 0 <= i <= 42 -> 32 <= fsz i <= MACRO_BLOC.
Proof.
  intros H. rewrite <- fsz_42.
  assert (fsz 0 <= fsz i) by (apply fsz_mono_le; lia).
  assert (fsz i <= fsz 42) by (apply fsz_mono_le; lia).
  change (fsz 0) with 32 in *. lia.
Qed.

(** The fast lookup, sizes up to 2 MB. *)
Lemma fast_small s : 32 <= s <= MACRO_BLOC ->
  exists i, get_free_list_fast s = Ok i /\ 0 <= i <= 42 /\ s <= fsz i /\ (0 < i -> fsz (i - 1) < s).
Proof.
  intros H. unfold MACRO_BLOC in H. unfold get_free_list_fast, reverse_analytic, MACRO_BLOC.
  rewrite s64_small by (rewrite S63_val; lia).
  destruct (Z.leb_spec s 1024) as [Hs|Hs].
  - assert (Hp : 0 <= s / 32 - 1 < 32) by lia.
    rewrite tab_ok, FREE_SIZES_fsz, fsz_lin by lia. cbn [rbind].
    destruct (Z.ltb_spec (32 * (s / 32 - 1 + 1)) s).
    + exists (s / 32 - 1 + 1). split; [reflexivity|].
      assert (s / 32 < 32) by lia.
      replace (s / 32 - 1 + 1 - 1) with (s / 32 - 1) by lia.
      rewrite !fsz_lin by lia. lia.
    + exists (s / 32 - 1). split; [reflexivity|].
      rewrite !fsz_lin by lia. lia.
  - destruct (Z.ltb_spec 2097152 s) as [?|Hs2]; [lia|].
    unfold log2_size. set (k := s / 1024).
    assert (Hk : 1 <= k <= 2048) by (subst k; lia).
    pose proof (Z.log2_spec k ltac:(lia)) as [L1 L2].
    set (l := Z.log2 k) in *.
    assert (Hl0 : 0 <= l) by (subst l; apply Z.log2_nonneg).
    assert (Hl : l <= 11).
    { destruct (Z.le_gt_cases l 11); [assumption|].
      assert (2 ^ 12 <= 2 ^ l) by (apply Z.pow_le_mono_r; lia). change (2^12) with 4096 in *. lia. }
    change (1024 / 32) with 32. replace (32 + l - 1) with (31 + l) by lia.
    rewrite tab_ok, FREE_SIZES_fsz, fsz_exp by lia. cbn [rbind].
    rewrite Z.pow_succ_r in L2 by lia.
    assert (Hks : 1024 * k <= s < 1024 * k + 1024) by (subst k; lia).
    destruct (Z.ltb_spec (1024 * 2 ^ l) s).
    + exists (31 + l + 1). split; [reflexivity|].
      assert (l <= 10).
      { destruct (Z.eq_dec l 11) as [El|]; [|lia]. rewrite El in *.
        change (2^11) with 2048 in *. lia. }
      replace (31 + l + 1) with (31 + (l + 1)) by lia.
      replace (31 + (l + 1) - 1) with (31 + l) by lia.
      rewrite !fsz_exp by lia. replace (l + 1) with (Z.succ l) by lia. rewrite Z.pow_succ_r by lia. nia.
    + exists (31 + l). split; [reflexivity|].
      rewrite !fsz_exp by lia. split; [lia|]. split; [lia|]. intros _.
      assert (fsz (31 + l - 1) < fsz (31 + l)) by (apply fsz_mono; lia).
      rewrite fsz_exp in H1 by lia. nia.
Qed.

(** Above 2 MB the fast lookup answers 44. *)
Lemma fast_big s : MACRO_BLOC < s < S63 -> get_free_list_fast s = Ok 44.
Proof.
  intros H. rewrite S63_val in H. unfold MACRO_BLOC in H. unfold get_free_list_fast, reverse_analytic, MACRO_BLOC.
  destruct (Z.leb_spec s 1024); [lia|]. destruct (Z.ltb_spec 2097152 s); [|lia].
  rewrite s64_small by (rewrite S63_val; lia).
  rewrite tab_ok by lia. rewrite FREE_SIZES_fsz by lia. rewrite fsz_top by lia. cbn [rbind].
  destruct (Z.ltb_spec (-1) s); [reflexivity|lia].
Qed.

(** Where a free chunk is filed. *)
Lemma insert_small c : 32 <= c <= MACRO_BLOC ->
  exists j, insert_class c = Ok j /\ 0 <= j <= 42 /\ fsz j <= c /\ (j < 42 -> c < fsz (j + 1)).
Proof.
  intros H. destruct (fast_small c H) as (i & E & Hi & Hhi & Hlo).
  unfold insert_class. rewrite E. cbn [rbind].
  rewrite tab_ok, FREE_SIZES_fsz by lia. cbn [rbind].
  assert (Hp := fsz_pos i Hi).
  destruct (Z.eqb_spec i 0) as [->|Hi0]; cbn [negb andb].
  { exists 0. split; [reflexivity|]. change (fsz 0) with 32 in *. change (fsz (0 + 1)) with 64. lia. }
  destruct (Z.eqb_spec (fsz i) (-1)); cbn [negb andb]; [lia|].
  destruct (Z.eqb_spec (fsz i) c); cbn [negb andb].
  - exists i. split; [reflexivity|]. split; [lia|]. split; [lia|].
    intros. assert (fsz i < fsz (i + 1)) by (apply fsz_mono; lia). lia.
  - exists (i - 1). split; [reflexivity|]. split; [lia|]. split; [specialize (Hlo ltac:(lia)); lia|].
    intros. replace (i - 1 + 1) with i by lia. lia.
Qed.

Lemma insert_big c : MACRO_BLOC < c < S63 -> insert_class c = Ok 44.
Proof.
  intros H. unfold insert_class. rewrite fast_big by exact H. cbn [rbind].
  rewrite tab_ok by lia. rewrite FREE_SIZES_fsz by lia. rewrite fsz_top by lia. reflexivity.
Qed.

(** The binary search, sizes up to 2 MB. *)
Lemma slow_loop_ok s : 32 < s <= MACRO_BLOC ->
  forall fuel base seg t,
  0 < t <= 42 -> s <= fsz t -> fsz (t - 1) < s ->
  0 <= base < t -> t < base + seg -> base + seg <= 44 -> fsz base < s ->
  seg <= Z.of_nat fuel ->
  slow_loop fuel FREE_SIZES s base seg (seg / 2) = Ok t.
Proof.
  intros Hs. induction fuel as [|fuel IH]; intros base seg t Ht Hhi Hlo Hb Htb Hb44 Hbs Hf.
  - lia.
  - cbn [slow_loop]. set (i := seg / 2).
    assert (Hi : 1 <= i < seg) by (subst i; lia).
    assert (Hp : base + i <= 42).
    { destruct (Z.le_gt_cases (base + i) 42); [assumption|]. subst i.
      assert (base = 42) by lia. lia. }
    rewrite !tab_ok, !FREE_SIZES_fsz by lia. cbn [rbind].
    assert (Hlt : forall j, 0 <= j <= 42 -> fsz j < s -> j < t).
    { intros j Hj Hjs. destruct (Z.lt_ge_cases j t); [assumption|].
      assert (fsz t <= fsz j) by (apply fsz_mono_le; lia). lia. }
    assert (Hge : forall j, 0 <= j <= 42 -> s <= fsz j -> t <= j).
    { intros j Hj Hjs. destruct (Z.le_gt_cases t j); [assumption|].
      assert (fsz j <= fsz (t - 1)) by (apply fsz_mono_le; lia). lia. }
    destruct (Z.leb_spec s (fsz (base + i - 1))) as [L|L].
    + assert (t <= base + i - 1) by (apply Hge; [lia|exact L]).
      destruct (Z.ltb_spec (fsz (base + i)) s) as [U|U].
      * assert (base + i < t) by (apply Hlt; [lia|exact U]). lia.
      * apply IH; try lia; subst i; lia.
    + assert (base + i - 1 < t) by (apply Hlt; [lia|exact L]).
      destruct (Z.ltb_spec (fsz (base + i)) s) as [U|U].
      * assert (base + i < t) by (apply Hlt; [lia|exact U]).
        apply IH; try lia.
      * assert (t <= base + i) by (apply Hge; [lia|exact U]). f_equal. lia.
Qed.

Lemma slow_small s fuel : 32 <= s <= MACRO_BLOC -> (44 <= fuel)%nat ->
  exists i, get_free_list_slow fuel FREE_SIZES s = Ok i /\ 0 <= i <= 42 /\ s <= fsz i /\ (0 < i -> fsz (i - 1) < s).
Proof.
  intros H Hf. unfold get_free_list_slow. rewrite nb_default. rewrite tab_ok by lia. cbn [rbind].
  change (tabv FREE_SIZES 0) with 32.
  unfold MACRO_BLOC in H.
  rewrite s64_small by (rewrite S63_val; lia).
  destruct (Z.leb_spec s 32).
  - exists 0. split; [reflexivity|]. change (fsz 0) with 32. lia.
  - destruct (fast_small s) as (i & _ & Hi & Hhi & Hlo); [unfold MACRO_BLOC; lia|].
    exists i.
    assert (i <> 0). { intros ->. change (fsz 0) with 32 in *. lia. }
    split; [|auto].
    apply slow_loop_ok; try (unfold MACRO_BLOC; lia); try lia.
    change (fsz 0) with 32. lia.
Qed.

(** Above 2 MB the binary search never ends, in both tables. *)
Lemma slow_stuck T s fuel : tabv T 43 < s -> tabv T 42 < s ->
  slow_loop fuel T s 43 1 0 = OutOfFuel.
Proof.
  intros H1 H2. induction fuel as [|fuel IH]; [reflexivity|].
  cbn [slow_loop]. change (43 + 0 - 1) with 42. change (43 + 0) with 43.
  rewrite !tab_ok by lia. cbn [rbind].
  destruct (Z.leb_spec s (tabv T 42)); [lia|].
  destruct (Z.ltb_spec (tabv T 43) s); [|lia]. exact IH.
Qed.

Lemma slow_big_default s fuel : MACRO_BLOC < s < S63 ->
  get_free_list_slow fuel FREE_SIZES s = OutOfFuel.
Proof.
  intros H. unfold MACRO_BLOC in H. unfold get_free_list_slow. rewrite nb_default.
  rewrite tab_ok by lia. cbn [rbind]. change (tabv FREE_SIZES 0) with 32.
  rewrite s64_small by lia.
  destruct (Z.leb_spec s 32); [lia|].
  assert (B : forall i, 0 <= i <= 47 -> tabv FREE_SIZES i < s).
  { intros i Hi. rewrite FREE_SIZES_fsz by lia. destruct (Z.le_gt_cases i 42).
    - assert (Hp := fsz_pos i). unfold MACRO_BLOC in Hp. lia.
    - rewrite fsz_top; lia. }
  change (44 / 2) with 22.
  do 6 (destruct fuel as [|fuel]; [reflexivity|]; cbn [slow_loop];
    rewrite !tab_ok by lia; cbn [rbind];
    match goal with |- context [s <=? tabv FREE_SIZES ?i] => 
      assert (tabv FREE_SIZES i < s) by (apply B; lia);
      destruct (Z.leb_spec s (tabv FREE_SIZES i)); [lia|] end;
    match goal with |- context [tabv FREE_SIZES ?i <? s] => 
      assert (tabv FREE_SIZES i < s) by (apply B; lia);
      destruct (Z.ltb_spec (tabv FREE_SIZES i) s); [|lia] end;
    match goal with |- context [slow_loop _ _ _ ?b ?g ?i] => 
      let b' := eval compute in b in let g' := eval compute in g in let i' := eval compute in i in
      change b with b'; change g with g'; change i with i' end).
  apply slow_stuck; apply B; lia.
Qed.

Lemma mms_top i : 20 <= i <= 47 -> tabv MMS_FREE_SIZES i < 0.
Proof.
  intros H.
  assert (E : (fun i => (i <? 20) || (tabv MMS_FREE_SIZES i <? 0)) i = true).
  { apply (forall_below (fun i => (i <? 20) || (tabv MMS_FREE_SIZES i <? 0)) 48); [vm_compute; reflexivity|lia]. }
  cbv beta in E. lia.
Qed.

Lemma slow_big_mms s fuel : MACRO_BLOC < s < S63 ->
  get_free_list_slow fuel MMS_FREE_SIZES s = OutOfFuel.
Proof.
  intros H. unfold MACRO_BLOC in H. unfold get_free_list_slow. rewrite nb_mms.
  rewrite tab_ok by lia. cbn [rbind]. change (tabv MMS_FREE_SIZES 0) with 2097152.
  rewrite s64_small by lia.
  destruct (Z.leb_spec s 2097152); [lia|].
  assert (B : forall i, 20 <= i <= 47 -> tabv MMS_FREE_SIZES i < s).
  { intros i Hi. assert (Hp := mms_top i Hi). lia. }
  change (44 / 2) with 22.
  do 6 (destruct fuel as [|fuel]; [reflexivity|]; cbn [slow_loop];
    rewrite !tab_ok by lia; cbn [rbind];
    match goal with |- context [s <=? tabv MMS_FREE_SIZES ?i] => 
      assert (tabv MMS_FREE_SIZES i < s) by (apply B; lia);
      destruct (Z.leb_spec s (tabv MMS_FREE_SIZES i)); [lia|] end;
    match goal with |- context [tabv MMS_FREE_SIZES ?i <? s] => 
      assert (tabv MMS_FREE_SIZES i < s) by (apply B; lia);
      destruct (Z.ltb_spec (tabv MMS_FREE_SIZES i) s); [|lia] end;
    match goal with |- context [slow_loop _ _ _ ?b ?g ?i] => 
      let b' := eval compute in b in let g' := eval compute in g in let i' := eval compute in i in
      change b with b'; change g with g'; change i with i' end).
  apply slow_stuck; apply B; lia.
Qed.

(** ** Specification side: the least class that is large enough *)
Definition least_class (T : list Z) (s i : Z) : Prop :=
  0 <= i < 48 /\ s <= nth (Z.to_nat i) T 0 /\ forall j, 0 <= j < i -> nth (Z.to_nat j) T 0 < s.

Lemma least_of_fsz s i : 0 <= i <= 42 -> s <= fsz i -> (0 < i -> fsz (i - 1) < s) -> least_class FREE_SIZES s i.
Proof.
  intros Hi Hhi Hlo. split; [lia|].
  assert (E : forall j, 0 <= j <= i -> nth (Z.to_nat j) FREE_SIZES 0 = fsz j).
  { intros j Hj. apply FREE_SIZES_fsz. lia. }
  split; [rewrite E by lia; exact Hhi|].
  intros j Hj. rewrite E by lia.
  assert (fsz j <= fsz (i - 1)) by (apply fsz_mono_le; lia). specialize (Hlo ltac:(lia)). lia.
Qed.

Lemma lookups_exact s fuel : 32 <= s <= MACRO_BLOC -> (44 <= fuel)%nat ->
  exists i, get_free_list_fast s = Ok i /\ get_free_list_slow fuel FREE_SIZES s = Ok i /\ least_class FREE_SIZES s i.
Proof.
  intros H Hf. destruct (fast_small s H) as (i & E & Hi & Hhi & Hlo).
  destruct (slow_small s fuel H Hf) as (j & E' & Hj & Hhi' & Hlo').
  assert (i = j).
  { destruct (Z.lt_trichotomy i j) as [L|[L|L]]; [|exact L|].
    - assert (fsz i <= fsz (j - 1)) by (apply fsz_mono_le; lia). specialize (Hlo' ltac:(lia)). lia.
    - assert (fsz j <= fsz (i - 1)) by (apply fsz_mono_le; lia). specialize (Hlo ltac:(lia)). lia. }
  subst j. exists i. repeat split; auto; try lia. 
  - apply (least_of_fsz s i); auto.
  - apply (least_of_fsz s i); auto.
Qed.

Lemma filing_sound c : 32 <= c <= MACRO_BLOC ->
  exists j, insert_class c = Ok j /\ 0 <= j < 44 /\ nth (Z.to_nat j) FREE_SIZES 0 <= c /\ 
  (forall k, j < k <= 42 -> c < nth (Z.to_nat k) FREE_SIZES 0).
Proof.
  intros H. destruct (insert_small c H) as (j & E & Hj & Hlo & Hhi).
  exists j. split; [exact E|]. split; [lia|].
  split. { change (nth (Z.to_nat j) FREE_SIZES 0) with (tabv FREE_SIZES j). rewrite FREE_SIZES_fsz by lia. exact Hlo. }
  intros k Hk. change (nth (Z.to_nat k) FREE_SIZES 0) with (tabv FREE_SIZES k). rewrite FREE_SIZES_fsz by lia.
  assert (fsz (j + 1) <= fsz k) by (apply fsz_mono_le; lia). specialize (Hhi ltac:(lia)). lia.
Qed.

Lemma request_class n fuel : 1 <= n <= MACRO_BLOC - 16 -> (44 <= fuel)%nat ->
  exists i, get_free_list_fast (calc_chunk_size n) = Ok i /\
            get_free_list_slow fuel FREE_SIZES (calc_chunk_size n) = Ok i /\
            least_class FREE_SIZES (Z.max 32 (n + 16)) i.
Proof.
  intros H Hf. unfold MACRO_BLOC in H.
  assert (E : calc_chunk_size n = Z.max 32 (n + 16)).
  { unfold calc_chunk_size. rewrite add64_small by (rewrite W64_val; lia). cbv zeta. destruct (Z.leb_spec (n + 16) 32); lia. }
  rewrite E. apply lookups_exact; [unfold MACRO_BLOC; lia|exact Hf].
Qed.

Lemma lookup_big s : MACRO_BLOC < s < S63 ->
  get_free_list_fast s = Ok 44 /\ insert_class s = Ok 44 /\ nb_free_lists FREE_SIZES <= 44 /\
  (forall fuel, get_free_list_slow fuel FREE_SIZES s = OutOfFuel) /\
  (forall fuel, get_free_list_slow fuel MMS_FREE_SIZES s = OutOfFuel).
Proof.
  intros H. split; [apply fast_big; exact H|]. split; [apply insert_big; exact H|].
  split; [rewrite nb_default; lia|].
  split; intros fuel; [apply slow_big_default|apply slow_big_mms]; exact H.
Qed.
