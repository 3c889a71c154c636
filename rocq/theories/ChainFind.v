(** Search of a free chunk. *)
From Verif Require Import Word Res Mem SizeClassModel SizeClassProofs ChainModel Wp ChainInv ChainZip ChainList ChainFl ChainPrim.
From Coq Require Import ZArith List Bool Lia.
Import ListNotations.
Open Scope Z_scope.

Section F.
  Context (g : cfg) (s : st) (A : list seg) (F : Z -> list Z).
  Hypothesis IV : Inv g s A F.

  Lemma free_hdr a c : In (a, c) (frees A) ->
    ld (smem s) a 7 = c /\ 32 <= c < AMAX /\ accb (srng s) a 32 = true /\ node g A a /\ a <> 0.
  Proof using IV.
    intros H. destruct IV as [W _ _].
    assert (K := H). apply frees_zip in K as (S1 & b & z & l1 & l2 & S2 & -> & Ea).
    assert (HC := world_chunk _ _ _ _ _ _ _ _ _ _ _ _ W Ea).
    destruct HC as (H1 & H2 & (H3 & H4 & H5) & H6 & H7 & H8 & H9 & H10 & H11 & H12 & _).
    split; [exact H3|]. split; [eapply cell_size_range; [exact W|apply frees_in_cells; exact H]|].
    split; [|split; [eapply node_free; exact H|lia]]. eapply accb_intro; [exact H11|lia|lia].
  Qed.

  Lemma list_elem i a : 0 <= i < 48 -> In a (F i) -> exists c, In (a, c) (frees A) /\ insert_class c = Ok i.
  Proof using IV. intros Hi H. destruct IV as [_ FL _]. apply (fl_in _ _ _ _ FL) in H; auto. Qed.

  Lemma list_len i : 0 <= i < 48 -> (length (F i) <= length (frees A))%nat.
  Proof using IV.
    intros Hi. destruct IV as [_ FL _]. rewrite <- (map_length fst (frees A)).
    apply NoDup_incl_length; [apply (fl_nodup _ _ _ _ FL); auto|].
    intros a Ha. apply (fl_in _ _ _ _ FL) in Ha as (c & H & _); [|auto].
    apply in_map_iff. exists (a, c). auto.
  Qed.

  Lemma head_ne0 i : 0 <= i < 48 -> flist g i <> 0.
  Proof using IV. intros Hi. destruct IV as [[P _ _ _] _ _]. unfold flist. lia. Qed.

  Lemma dsegf_suffix L1 L2 x e : dsegf (nxt (smem s)) (prv (smem s)) x (L1 ++ L2) e ->
    exists y, dsegf (nxt (smem s)) (prv (smem s)) y L2 e /\ last (x :: L1) x = y.
  Proof using.
    destruct L1 as [|w L1 _] using rev_ind; intros H.
    - exists x. auto.
    - rewrite <- app_assoc in H. cbn [app] in H. apply dsegf_app in H as [_ H]. exists w.
      split; [exact H|]. rewrite app_comm_cons. apply last_last.
  Qed.

  Lemma find_adapted_loop_spec i size fuel : 0 <= i < 48 -> forall L1 L2,
    F i = L1 ++ L2 -> (length L2 < fuel)%nat ->
    wp (find_adapted_loop fuel (flist g i) (hd (flist g i) L2) size) s (fun r s' => s' = s /\
      ((r = flist g i /\ forall a c, In a L2 -> In (a, c) (frees A) -> c < size) \/
       exists c, In r L2 /\ In (r, c) (frees A) /\ size <= c)).
  Proof using IV.
    intros Hi. induction fuel as [|fuel IH]; intros L1 L2 EF HL; [lia|].
    cbn [find_adapted_loop].
    assert (H0 := head_ne0 i Hi).
    destruct L2 as [|a L2]; cbn [hd].
    - rewrite Z.eqb_refl, orb_true_r. apply wp_ret. split; [reflexivity|]. left. split; [reflexivity|]. intros a c [].
    - assert (Ha : In a (F i)) by (rewrite EF, in_app_iff; cbn; auto).
      destruct (list_elem i a Hi Ha) as (c & Hc & _).
      destruct (free_hdr a c Hc) as (E1 & E2 & E3 & E4 & E5).
      assert (Hne : a <> flist g i).
      { intros ->. destruct IV as [W FL _].
        eapply (fl_head g (srng s) (smem s) A W F (frees A)); [| | |exact Hi|exact Ha]; auto.
        intros; apply frees_in_cells; auto. }
      destruct (Z.eqb_spec a 0); [contradiction|]. destruct (Z.eqb_spec a (flist g i)); [contradiction|]. cbn [orb].
      apply wp_bind. apply wp_load; [eapply accb_sub; [exact E3|lia|cbn; lia]|]. rewrite E1.
      destruct (Z.ltb_spec c size).
      + apply wp_bind. destruct IV as [W FL _]. apply (wp_get_next g (srng s) (smem s) A W); auto.
        assert (R := fl_ring _ _ _ _ FL i Hi). rewrite EF, dseg_dsegf in R.
        apply dsegf_app in R as [_ R]. apply dsegf_nxt_first in R. rewrite R.
        eapply wp_mono; [apply (IH (L1 ++ [a]) L2); [rewrite <- app_assoc; exact EF|cbn in HL; lia]|].
        intros r s' (-> & [(-> & K)|(d & K1 & K2 & K3)]); (split; [reflexivity|]).
        * left. split; [reflexivity|]. intros a' c' [<-|Ha'] Hc'; [|eauto].
          assert (c' = c) by (eapply cell_size; [exact W|apply frees_in_cells; eauto|apply frees_in_cells; eauto]). lia.
        * right. exists d. split; [right; exact K1|auto].
      + apply wp_ret. split; [reflexivity|]. right. exists c. split; [left; reflexivity|auto].
  Qed.

  Lemma find_adapted_spec i size fuel : 0 <= i < 48 -> (length (frees A) < fuel)%nat ->
    wp (find_adapted fuel (flist g i) size) s (fun r s' => s' = s /\
      ((r = 0 /\ forall a c, In a (F i) -> In (a, c) (frees A) -> c < size) \/
       (r <> 0 /\ exists c, In r (F i) /\ In (r, c) (frees A) /\ size <= c))).
  Proof using IV.
    intros Hi HL. unfold find_adapted. apply wp_bind.
    destruct IV as [W FL _]. apply (wp_get_next g (srng s) (smem s) A W); auto; [apply node_head; auto|].
    assert (R := fl_ring _ _ _ _ FL i Hi). rewrite dseg_dsegf in R. apply dsegf_nxt_first in R. rewrite R.
    apply wp_bind. assert (LL := list_len i Hi).
    eapply wp_mono; [apply (find_adapted_loop_spec i size fuel Hi [] (F i)); [reflexivity|lia]|].
    intros r s' (-> & K). apply wp_ret. split; [reflexivity|].
    destruct K as [(-> & K)|(c & K1 & K2 & K3)].
    - rewrite Z.eqb_refl. left. auto.
    - destruct (Z.eqb_spec r (flist g i)) as [E|E].
      + exfalso. subst r. eapply (fl_head g (srng s) (smem s) A W F (frees A)); [| | |exact Hi|exact K1]; auto.
        intros; apply frees_in_cells; auto.
      + right. destruct (free_hdr r c K2) as (_ & _ & _ & _ & X). split; [exact X|]. exists c. auto.
  Qed.

  Lemma first_non_empty_loop_spec n : forall i, 0 <= i -> i + Z.of_nat n <= 48 ->
    wp (first_non_empty_loop g n i) s (fun r s' => s' = s /\
      ((r = 0 /\ forall j, i <= j < i + Z.of_nat n -> F j = []) \/
       exists j, i <= j < i + Z.of_nat n /\ r = flist g j /\ r <> 0 /\ F j <> [] /\ forall k, i <= k < j -> F k = [])).
  Proof using IV.
    induction n as [|n IH]; intros i Hi Hn; cbn [first_non_empty_loop].
    - apply wp_ret. split; [reflexivity|]. left. split; [reflexivity|]. intros; lia.
    - apply wp_bind. destruct IV as [W FL _]. apply (wp_load_status g (srng s) (smem s) A W); auto; [lia|].
      rewrite (fl_stat _ _ _ _ FL) by lia.
      destruct (F i) as [|a l] eqn:EF; cbn [Z.eqb negb].
      + eapply wp_mono; [apply (IH (i + 1)); lia|].
        intros r s' (-> & K). split; [reflexivity|].
        destruct K as [(-> & K)|(j & K1 & K2 & K3 & K4 & K5)].
        * left. split; [reflexivity|]. intros j Hj. destruct (Z.eq_dec j i) as [->|]; [exact EF|]. apply K. lia.
        * right. exists j. split; [lia|]. split; [auto|]. split; [auto|]. split; [auto|].
          intros k Hk. destruct (Z.eq_dec k i) as [->|]; [exact EF|]. apply K5. lia.
      + apply wp_ret. split; [reflexivity|]. right. exists i. split; [lia|]. split; [reflexivity|].
        split; [apply head_ne0; lia|]. rewrite EF. split; [discriminate|]. intros; lia.
  Qed.

  Lemma flist_id i : list_id g (flist g i) = i.
  Proof using. unfold list_id, flist. lia. Qed.

  (** Class of a chunk large enough for the request. *)
  Lemma class_reach size c i j : 32 <= size -> size <= c -> c <= MACRO_BLOC ->
    get_free_list_fast size = Ok i -> insert_class c = Ok j -> 0 <= j <= 42 /\ i - 1 <= j.
  Proof using.
    intros H1 H2 H3 E1 E2.
    destruct (insert_small c) as (j' & E & Hj & Hlo & Hhi); [lia|].
    destruct (fast_small size) as (i' & E' & Hi & Hhi' & Hlo'); [lia|].
    assert (j' = j) by congruence. assert (i' = i) by congruence. subst. split; [lia|].
    destruct (Z_lt_dec j (i - 1)) as [L|L]; [|lia]. exfalso.
    specialize (Hlo' ltac:(lia)). specialize (Hhi ltac:(lia)).
    assert (fsz (j + 1) <= fsz (i - 1)) by (apply fsz_mono_le; lia). lia.
  Qed.

  Lemma class_fits size c i j : 32 <= size < S63 -> 32 <= c < AMAX -> get_free_list_fast size = Ok i -> insert_class c = Ok j ->
    i <= j -> j <= 43 -> size <= c.
  Proof using.
    intros H1 H2 E1 E2 Hij Hj.
    destruct (Z_le_gt_dec size MACRO_BLOC) as [L|L].
    - destruct (fast_small size) as (i' & E' & Hi & Hhi' & Hlo'); [lia|]. assert (i' = i) by congruence. subst.
      destruct (Z_le_gt_dec c MACRO_BLOC) as [L'|L'].
      + destruct (insert_small c) as (j' & E & Hj' & Hlo & Hhi); [lia|]. assert (j' = j) by congruence. subst.
        assert (fsz i <= fsz j) by (apply fsz_mono_le; lia). lia.
      + unfold MACRO_BLOC in *. lia.
    - rewrite fast_big in E1 by (rewrite S63_val in *; lia). injection E1 as <-. lia.
  Qed.

  Lemma find_chunk_spec n fuel : 1 <= n < S63 - 16 -> (length (frees A) < fuel)%nat ->
    wp (find_free_chunk fuel g n) s (fun r s' =>
      (r = 0 /\ s' = s /\ forall a c, In (a, c) (frees A) -> c <= MACRO_BLOC -> c < calc_chunk_size n) \/
      (r <> 0 /\ exists S1 b z l1 c l2 S2 F',
         A = S1 ++ mkSeg b z (l1 ++ (c, Fr) :: l2) :: S2 /\ r = b + 32 + tot l1 /\ calc_chunk_size n <= c /\
         Inv g s' (S1 ++ mkSeg b z (l1 ++ (c, Lk) :: l2) :: S2) F' /\ memonly s s' /\
         chg (smem s) (smem s') (scratch g A))).
  Proof using IV.
    intros Hn Hfuel. unfold find_free_chunk. rewrite S63_val in Hn.
    set (size := calc_chunk_size n).
    assert (Hs : 32 <= size < S63).
    { unfold size, calc_chunk_size. rewrite add64_small by (rewrite W64_val; lia). cbv zeta.
      rewrite S63_val. destruct (Z.leb_spec (n + 16) 32); lia. }
    assert (Es : s64 size = size) by (apply s64_small; lia). rewrite Es.
    assert (Hi : exists i, get_free_list_fast size = Ok i /\ 0 <= i <= 44 /\ (size > MACRO_BLOC -> i = 44)).
    { destruct (Z_le_gt_dec size MACRO_BLOC) as [L|L].
      - destruct (fast_small size) as (i & E & K & _); [lia|]. exists i. split; [exact E|]. lia.
      - exists 44. split; [apply fast_big; lia|lia]. }
    destruct Hi as (i & Ei & Hi & Hbig).
    apply wp_bind. eapply wp_lift; [exact Ei|]. cbv zeta.
    unfold first_non_empty. rewrite flist_id, nb_default.
    apply wp_bind. eapply wp_mono; [apply (first_non_empty_loop_spec (Z.to_nat (44 - i)) i); lia|].
    rewrite Z2Nat.id by lia. replace (i + (44 - i)) with 44 by lia.
    intros l s' (-> & HL). apply wp_bind.
    (* first search *)
    apply wp_mono with (Q := fun r s' => s' = s /\
      ((r = 0 /\ forall j a c, i <= j <= 43 -> In (a, c) (frees A) -> insert_class c = Ok j -> False) \/
       (r <> 0 /\ exists c, In (r, c) (frees A) /\ size <= c))).
    { destruct HL as [(-> & HE)|(j & Hj & -> & Hne & HF & HE)].
      - cbn [Z.eqb]. apply wp_ret. split; [reflexivity|]. left. split; [reflexivity|].
        intros j a c Hj Hc Hcl. destruct IV as [_ FL _].
        assert (K : In a (F j)) by (apply (fl_in _ _ _ _ FL); [lia|eauto]).
        rewrite HE in K by lia. exact K.
      - destruct (Z.eqb_spec (flist g j) 0); [contradiction|].
        eapply wp_mono; [apply find_adapted_spec; [lia|exact Hfuel]|].
        intros r s' (-> & [(-> & K)|(K1 & c & K2 & K3 & K4)]); (split; [reflexivity|]).
        + exfalso. destruct (F j) as [|a l'] eqn:EFj; [congruence|].
          destruct (list_elem j a) as (c & Hc & Hcl); [lia|rewrite EFj; left; reflexivity|].
          assert (c < size) by (apply (K a c); [left; reflexivity|exact Hc]).
          destruct (free_hdr a c Hc) as (_ & Rc & _).
          assert (size <= c) by (eapply class_fits; [exact Hs|exact Rc|exact Ei|exact Hcl|lia|lia]). lia.
        + right. split; [exact K1|]. exists c. auto. }
    intros r s' (-> & HR). apply wp_bind.
    (* second search *)
    apply wp_mono with (Q := fun r s' => s' = s /\
      ((r = 0 /\ forall a c, In (a, c) (frees A) -> c <= MACRO_BLOC -> c < size) \/
       (r <> 0 /\ exists c, In (r, c) (frees A) /\ size <= c))).
    { assert (NOTFIT : r = 0 -> (i <> 0 -> forall a c, In a (F (i - 1)) -> In (a, c) (frees A) -> c < size) ->
        forall a c, In (a, c) (frees A) -> c <= MACRO_BLOC -> c < size).
      { intros Er HP a c Hc Hle. destruct HR as [(_ & HE)|(Hne & _)]; [|contradiction].
        destruct (Z_lt_dec c size) as [L|L]; [exact L|exfalso].
        destruct (free_hdr a c Hc) as (_ & Rc & _).
        destruct (insert_class_ok c Rc) as (j & Ej & Hj & _).
        destruct (class_reach size c i j) as (Hj1 & Hj2); auto; try lia.
        destruct (Z_le_gt_dec i j) as [L1|L1]; [eapply (HE j a c); auto; lia|].
        assert (j = i - 1) by lia. subst j.
        destruct IV as [_ FL _].
        assert (K : In a (F (i - 1))) by (apply (fl_in _ _ _ _ FL); [lia|eauto]).
        specialize (HP ltac:(lia) a c K Hc). lia. }
      destruct (Z.eqb_spec r 0) as [Er|Er]; cbn [andb].
      - destruct (Z.eqb_spec (flist g i) (flist g 0)) as [E0|E0]; cbn [negb].
        + apply wp_ret. split; [reflexivity|]. left. split; [exact Er|]. apply NOTFIT; [exact Er|].
          intros D. exfalso. apply D. unfold flist in E0. lia.
        + assert (D : i <> 0) by (intros ->; auto).
          replace (flist g i - 32) with (flist g (i - 1)) by (unfold flist; lia).
          eapply wp_mono; [apply find_adapted_spec; [lia|exact Hfuel]|].
          intros r' s' (-> & [(-> & K)|(K1 & c & K2 & K3 & K4)]); (split; [reflexivity|]).
          * left. split; [reflexivity|]. apply NOTFIT; [exact Er|]. intros _. exact K.
          * right. split; [exact K1|]. exists c. auto.
      - apply wp_ret. split; [reflexivity|]. right. destruct HR as [(K & _)|K]; [contradiction|exact K]. }
    clear r HR HL l. intros r s' (-> & [(-> & HR)|(Hne & c & Hc & Hle)]).
    - cbn [Z.eqb]. apply wp_bind. apply wp_ret. apply wp_ret. left. auto.
    - destruct (Z.eqb_spec r 0); [contradiction|].
      assert (K := Hc). apply frees_zip in K as (S1 & b & z & l1 & l2 & S2 & EA & Er).
      apply wp_bind. assert (IV' := IV). rewrite EA in IV'.
      eapply wp_mono; [eapply remove_spec; [exact IV'|exact Er]|].
      intros _ s' (F' & I' & M' & C'). apply wp_ret. right. split; [exact Hne|].
      exists S1, b, z, l1, c, l2, S2, F'. rewrite <- EA in C'. auto 10.
  Qed.
End F.
