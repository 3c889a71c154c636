(** Specification of the free operation on a state satisfying the invariant. *)
From Verif Require Import Word Res Mem SizeClassModel SizeClassProofs ChainModel Wp ChainInv ChainZip ChainList ChainFl ChainPrim ChainFind ChainSplit ChainMerge ChainOps ChainAlloc.
From Coq Require Import ZArith List Bool Lia.
Import ListNotations.
Open Scope Z_scope.

Definition shrunk (s : st) (b : Z) : st :=
  set_cnt (set_ev (set_rng s (filter (fun '(x, _) => negb (x =? b)) (srng s))) (EPut b)) (scnt s - 1).

Lemma free_macro_spec g s F S1 b z c S2 :
  Inv g s (S1 ++ mkSeg b z [(c, Lk)] :: S2) F -> z = c + 48 -> z mod MACRO_BLOC = 0 -> sbase s = 0 ->
  wp (free_macro_bloc g (b + 32 + 15)) s (fun _ s' => s' = shrunk s b /\ Inv g s' (S1 ++ S2) F).
Proof.
  intros IV Ez Hz H0. assert (W := iv_w _ _ _ _ IV).
  change [(c, Lk)] with ([] ++ (c, Lk) :: []) in W.
  assert (Ea : b + 32 = b + 32 + tot []) by (cbn [tot]; lia).
  assert (HC := world_chunk _ _ _ _ _ _ _ _ _ _ _ _ W Ea).
  destruct HC as (H1 & H2 & (H3 & H4 & H5) & _ & H7 & H8 & H9 & H10 & H11 & _).
  unfold free_macro_bloc. apply wp_bind. eapply wp_vsize; [exact W|exact Ea|].
  assert (E : c mod MACRO_BLOC =? MACRO_BLOC - SZ_MACRO - SZ_LARGE = true).
  { unfold MACRO_BLOC, SZ_MACRO, SZ_LARGE in *. lia. }
  rewrite E. cbn [negb].
  apply wp_bind. eapply wp_get_ptr_large; [eapply accb_intro; [exact H11|lia|lia]|exact H5|reflexivity|].
  replace (b + 32 + 15 - 15 - SZ_MACRO) with b by (unfold SZ_MACRO; lia).
  assert (D := dropseg g s F S1 b z [(c, Lk)] S2 (shrunk s b) IV ltac:(repeat constructor; discriminate) H0 eq_refl eq_refl eq_refl).
  destruct D as (D1 & D2).
  assert (HS : In (mkSeg b z [(c, Lk)]) (S1 ++ mkSeg b z [(c, Lk)] :: S2)) by (apply in_or_app; right; left; reflexivity).
  destruct (w_segok _ _ _ _ W _ HS) as (_ & _ & _ & (K & _) & K' & _). cbn [gbase gsize] in K, K'.
  assert (X : existsb (fun '(x, y) => (x =? b) && (ld (smem s) b 7 =? y)) (srng s) && (negb (creg g) || (ld (smem s) (b + 16) 8 =? cpool g)) = true).
  { apply andb_true_intro. split.
    - apply existsb_exists. exists (b, z). split; [exact (w_in_rng _ _ _ _ W _ HS)|]. lia.
    - destruct (creg g); [|reflexivity]. rewrite (K' eq_refl). cbn [negb orb]. apply Z.eqb_refl. }
  apply wp_bind. unfold source_free, wp. rewrite X. cbn. auto.
Qed.

Lemma chain_len g s F S1 b z l S2 :
  Inv g s (S1 ++ mkSeg b z l :: S2) F -> 32 * Z.of_nat (length l) <= bytes (S1 ++ mkSeg b z l :: S2).
Proof.
  intros IV. assert (W := iv_w _ _ _ _ IV).
  assert (WS := wd_seg _ _ _ _ W). unfold bytes. rewrite map_app. cbn [map gsize].
  assert (P : forall A, Forall (segok g (smem s)) A -> 0 <= fold_right Z.add 0 (map gsize A)).
  { induction A as [|sg A IH]; intros HF; cbn [map fold_right]; [lia|]. inversion HF as [|? ? K1 K2]; subst.
    specialize (IH K2). destruct K1 as (_ & _ & K & _ & _ & K6 & _). assert (T := cks_tot _ _ _ _ K6). lia. }
  apply Forall_app in WS as (W1 & W2). inversion W2 as [|? ? K1 K2]; subst. apply P in W1. apply P in K2.
  destruct K1 as (_ & _ & K & _ & _ & K6 & _). cbn [gsize gchunks gbase] in *.
  assert (L := cks_len _ _ _ _ K6).
  assert (FA : forall l1 x, fold_right Z.add x l1 = fold_right Z.add 0 l1 + x) by (induction l1; intros; cbn; [lia|rewrite IHl1; lia]).
  rewrite fold_right_app. cbn [fold_right]. rewrite FA. lia.
Qed.

Definition free_post g (s : st) S1 b z l1 c l2 S2 (s' : st) : Prop :=
  let A1 := S1 ++ mkSeg b z (l1 ++ (c, Lk) :: l2) :: S2 in
  exists F',
  chg (smem s) (smem s') (scratch g A1) /\
  ((csrc g = true /\ HUGE_LIMIT < c + 16 /\ c mod MACRO_BLOC <> MACRO_BLOC - 48 /\ s' = s /\ Inv g s' A1 F') \/
   (csrc g = true /\ allfr l1 /\ allfr l2 /\ tot l1 + c + tot l2 = z - 48 /\
      Inv g s' (S1 ++ S2) F' /\ memonly (shrunk s b) s') \/
   ((csrc g = true -> c + 16 <= HUGE_LIMIT) /\ exists l1' fl fr l2',
      l1 = l1' ++ fl /\ l2 = fr ++ l2' /\ allfr fl /\ allfr fr /\
      (if cmerge g then ~ endfr l1' /\ ~ begfr l2' else fl = [] /\ fr = []) /\
      (csrc g = true -> (tot fl + c + tot fr) mod MACRO_BLOC <> MACRO_BLOC - 48) /\
      Inv g s' (S1 ++ mkSeg b z (l1' ++ (tot fl + c + tot fr, Fr) :: l2') :: S2) F' /\ memonly s s')).

Lemma free_spec fuel g s F S1 b z l1 c p n d l2 S2 :
  let A := S1 ++ mkSeg b z (l1 ++ (c, Us p n d) :: l2) :: S2 in
  Inv g s A F -> bytes A < Z.of_nat fuel ->
  (csrc g = true -> sbase s = 0 /\ (z = MACRO_BLOC \/ (l1 = [] /\ l2 = [] /\ z mod MACRO_BLOC = 0))) ->
  wp (chain_free fuel g p) s (fun _ s' => free_post g s S1 b z l1 c l2 S2 s').
Proof.
  intros A IV0 Hfuel Hsrc. subst A.
  assert (LEN := chain_len _ _ _ _ _ _ _ _ IV0). rewrite app_length in LEN. cbn [length] in LEN.
  assert (IV := inv_us_lk _ _ _ _ _ _ _ _ _ _ _ _ _ IV0).
  assert (W0 := iv_w _ _ _ _ IV0). assert (W := iv_w _ _ _ _ IV).
  set (a := b + 32 + tot l1). assert (Ea : a = b + 32 + tot l1) by reflexivity.
  assert (HC := world_chunk _ _ _ _ _ _ _ _ _ _ _ _ W0 Ea).
  destruct HC as (H1 & H2 & (H3 & H4 & H5) & (K1 & K2 & K3 & K4 & K5 & _) & H7 & H8 & H9 & H10 & H11 & _ & _ & _ & _ & HT1).
  assert (BW := W64_val). assert (BS := S63_val).
  assert (SG : segok g (smem s) (mkSeg b z (l1 ++ (c, Lk) :: l2))).
  { eapply w_segok; [exact W|]. apply in_or_app. right. left. reflexivity. }
  assert (EZ : z = 48 + tot l1 + c + tot l2 /\ 0 <= tot l2).
  { destruct SG as (_ & _ & E & _ & _ & E6 & _). cbn [gsize gchunks] in *. rewrite tot_app in E. cbn [tot] in E.
    rewrite cks_app in E6. destruct E6 as (_ & E6). cbn [cks] in E6. destruct E6 as (_ & _ & _ & _ & E6).
    assert (T := cks_tot _ _ _ _ E6). lia. }
  unfold free_post. cbv zeta.
  unfold chain_free. destruct (Z.eqb_spec p 0); [lia|].
  apply wp_bind. eapply live_chunk_unpadded; [exact W0|exact Ea|].
  destruct (Z.eqb_spec (a + 15) 0); [lia|].
  apply wp_bind. eapply wp_get_state; [eapply accb_intro; [exact H11|lia|lia]|exact H5|].
  apply wp_bind. apply wp_assume; [reflexivity|].
  apply wp_bind. eapply wp_vsize; [exact W0|exact Ea|].
  assert (EH : is_huge g c = csrc g && (HUGE_LIMIT <? c + 16)).
  { unfold is_huge. rewrite calc_small by lia. do 2 f_equal. lia. }
  rewrite EH.
  destruct (csrc g && (HUGE_LIMIT <? c + 16)) eqn:Eh.
  - assert (Ec : csrc g = true) by (destruct (csrc g); [reflexivity|discriminate]).
    destruct (Hsrc Ec) as (HB & HZ). rewrite Ec in *. cbn [andb] in Eh.
    destruct (Z.eq_dec (c mod MACRO_BLOC) (MACRO_BLOC - 48)) as [Em|Em].
    + assert (WH : l1 = [] /\ l2 = [] /\ z = c + 48 /\ z mod MACRO_BLOC = 0).
      { destruct HZ as [HZ|(-> & -> & HZ)]; [|cbn [tot] in EZ; repeat split; auto; lia].
        assert (c = MACRO_BLOC - 48) by (unfold MACRO_BLOC in *; lia).
        assert (T1 : tot l1 = 0 /\ tot l2 = 0) by lia. destruct T1 as (T1 & T2).
        assert (LL := segok_replace). clear LL.
        destruct SG as (_ & _ & _ & _ & _ & E6 & _). cbn [gchunks gbase] in E6. rewrite cks_app in E6. destruct E6 as (E6 & E7).
        cbn [cks] in E7. destruct E7 as (_ & _ & _ & _ & E7).
        assert (L1 := cks_len _ _ _ _ E6). assert (L2 := cks_len _ _ _ _ E7).
        destruct l1; [|cbn [length] in *; lia]. destruct l2; [|cbn [length] in *; lia].
        split; [reflexivity|]. split; [reflexivity|]. split; [lia|]. rewrite HZ. reflexivity. }
      destruct WH as (-> & -> & Ez & Hz). cbn [app tot] in *.
      replace (a + 15) with (b + 32 + 15) by lia.
      eapply wp_mono; [eapply (free_macro_spec g s F S1 b z c S2); [exact IV|exact Ez|exact Hz|exact HB]|].
      intros _ s' (-> & IV'). exists F. split; [apply chg_refl|]. right. left.
      split; [reflexivity|]. split; [constructor|]. split; [constructor|]. split; [lia|]. split; [exact IV'|apply memonly_refl].
    + unfold free_macro_bloc. apply wp_bind. eapply wp_vsize; [exact W0|exact Ea|].
      assert (E : c mod MACRO_BLOC =? MACRO_BLOC - SZ_MACRO - SZ_LARGE = false).
      { unfold MACRO_BLOC, SZ_MACRO, SZ_LARGE in *. lia. }
      rewrite E. cbn [negb]. apply wp_ret. exists F. split; [apply chg_refl|]. left.
      split; [reflexivity|]. split; [lia|]. split; [exact Em|]. split; [reflexivity|exact IV].
  - apply wp_bind. apply wp_getst. apply wp_bind.
    assert (RD : wp (if negb (sbase s =? 0) then bind (get_chunk (sbase s + SZ_LARGE)) (fun _ => ret tt) else ret tt) s (fun _ s' => s' = s)).
    { destruct (Z.eqb_spec (sbase s) 0) as [E|E]; cbn [negb]; [apply wp_ret; reflexivity|].
      destruct (iv_base _ _ _ _ IV) as [K|(sg & KS & KB)]; [contradiction|].
      assert (KO := w_segok _ _ _ _ W _ KS). assert (KR := w_in_rng _ _ _ _ W _ KS).
      destruct KO as (J1 & J2 & J3 & (J4 & J5 & J6) & J7 & J8 & J9). assert (T := cks_tot _ _ _ _ J8).
      apply wp_bind. apply (wp_get_chunk s (sbase s + SZ_LARGE) 133); auto; unfold SZ_LARGE.
      - lia.
      - eapply accb_intro; [exact KR|lia|lia].
      - rewrite <- KB. replace (gbase sg + 16 - 1) with (gbase sg + 15) by lia. exact J6.
      - apply wp_ret. reflexivity. }
    eapply wp_mono; [exact RD|]. cbv beta. intros _ s0 ->.
    apply wp_bind.
    assert (MG : wp (if cmerge g then merge_chunk fuel g (a + 15) else ret (a + 15)) s (fun v s' =>
      exists l1' fl fr l2' F', l1 = l1' ++ fl /\ l2 = fr ++ l2' /\ allfr fl /\ allfr fr /\
      (if cmerge g then ~ endfr l1' /\ ~ begfr l2' else fl = [] /\ fr = []) /\
      v = b + 32 + tot l1' + 15 /\
      Inv g s' (S1 ++ mkSeg b z (l1' ++ (tot fl + c + tot fr, Lk) :: l2') :: S2) F' /\ memonly s s' /\
      chg (smem s) (smem s') (scratch g (S1 ++ mkSeg b z (l1 ++ (c, Lk) :: l2) :: S2)))).
    { destruct (cmerge g) eqn:Ecm.
      - eapply wp_mono; [eapply (merge_spec g s F S1 b z l1 c l2 S2 a fuel); [exact IV|exact Ea|lia|lia]|].
        intros v s' (l1' & fl & fr & l2' & F' & Q1 & Q2 & Q3 & Q4 & Q5 & Q6 & Q7 & Q8 & Q9 & Q10).
        exists l1', fl, fr, l2', F'. split; [exact Q1|]. split; [exact Q2|]. split; [exact Q3|]. split; [exact Q4|]. auto 10.
      - apply wp_ret. exists l1, [], [], l2, F. rewrite app_nil_r. split; [reflexivity|]. split; [reflexivity|].
        split; [constructor|]. split; [constructor|]. split; [auto|]. split; [exact (f_equal (fun q => q + 15) Ea)|].
        cbn [tot]. replace (0 + c + 0) with c by lia. split; [exact IV|]. split; [apply memonly_refl|apply chg_refl]. }
    eapply wp_mono; [exact MG|]. cbv beta. clear MG RD.
    intros v s1 (l1' & fl & fr & l2' & F1 & E1 & E2 & A1 & A2 & MM & Ev & IV1 & M1 & C1).
    set (t := tot fl + c + tot fr) in *. subst v.
    assert (W1 := iv_w _ _ _ _ IV1).
    apply wp_bind. eapply wp_vsize; [exact W1|reflexivity|].
    assert (HC1 := world_chunk _ _ _ _ _ _ _ _ _ _ _ _ W1 eq_refl).
    destruct HC1 as (G1 & G2 & _ & _ & G7 & G8 & _ & _ & _ & _ & _ & _ & _ & G16).
    destruct (csrc g && (t mod MACRO_BLOC =? MACRO_BLOC - SZ_MACRO - SZ_LARGE)) eqn:Ew.
    + assert (Ec : csrc g = true) by (destruct (csrc g); [reflexivity|discriminate]).
      destruct (Hsrc Ec) as (HB & HZ). rewrite Ec in *. cbn [andb] in Ew.
      assert (SG1 : segok g (smem s1) (mkSeg b z (l1' ++ (t, Lk) :: l2'))).
      { eapply w_segok; [exact W1|]. apply in_or_app. right. left. reflexivity. }
      destruct SG1 as (_ & _ & E3 & _ & _ & E6 & _). cbn [gsize gchunks gbase] in *. rewrite tot_app in E3. cbn [tot] in E3.
      rewrite cks_app in E6. destruct E6 as (E6 & E7). cbn [cks] in E7. destruct E7 as (_ & _ & _ & _ & E7).
      assert (L1 := cks_len _ _ _ _ E6). assert (L2 := cks_len _ _ _ _ E7).
      assert (WH : l1' = [] /\ l2' = [] /\ z mod MACRO_BLOC = 0).
      { unfold SZ_MACRO, SZ_LARGE, MACRO_BLOC in *. destruct HZ as [HZ|(-> & -> & HZ)].
        - destruct l1'; [|cbn [length] in *; lia]. destruct l2'; [|cbn [length] in *; lia].
          split; [reflexivity|]. split; [reflexivity|]. rewrite HZ. reflexivity.
        - symmetry in E1, E2. apply app_eq_nil in E1. apply app_eq_nil in E2. intuition. }
      destruct WH as (-> & -> & Hz). cbn [app tot] in *.
      replace (b + 32 + 0 + 15) with (b + 32 + 15) by lia.
      eapply wp_mono; [eapply (free_macro_spec g s1 F1 S1 b z t S2); [exact IV1|lia|exact Hz|]|].
      { red in M1. rewrite M1. exact HB. }
      rewrite app_nil_r in E2. subst fl fr.
      intros _ s' (-> & IV'). exists F1. split; [exact C1|]. right. left.
      split; [reflexivity|]. split; [exact A1|]. split; [exact A2|]. split; [lia|]. split; [exact IV'|].
      red in M1 |- *. rewrite M1. reflexivity.
    + unfold large_of, SZ_LARGE. replace (b + 32 + tot l1' + 15 + 1 - 16) with (b + 32 + tot l1') by lia.
      eapply wp_mono; [eapply (insert_spec g s1 F1 S1 b z l1' t l2' S2); [exact IV1|reflexivity]|].
      intros _ s2 (F2 & IV2 & M2 & C2). exists F2.
      split.
      { eapply chg_trans; [exact C1|].
        assert (EQ : l1 ++ (c, Lk) :: l2 = l1' ++ (fl ++ [(c, Lk)] ++ fr) ++ l2').
        { rewrite E1, E2, <- !app_assoc. reflexivity. }
        rewrite EQ. eapply chg_weaken; [exact C2|]. intros x Hx.
        apply (scratch_replace g S1 b z l1' (fl ++ [(c, Lk)] ++ fr) [(t, Lk)] l2' S2 x); [|repeat constructor| |exact Hx].
        - apply Forall_app. split; [eapply Forall_impl; [|exact A1]; intros ck ->; exact I|].
          constructor; [exact I|]. eapply Forall_impl; [|exact A2]; intros ck ->; exact I.
        - rewrite !tot_app. cbn [tot]. unfold t. lia. }
      right. right. split; [intros Ec; rewrite Ec in Eh; cbn [andb] in Eh; lia|].
      exists l1', fl, fr, l2'. split; [exact E1|]. split; [exact E2|]. split; [exact A1|]. split; [exact A2|].
      split; [exact MM|]. split.
      { intros Ec. rewrite Ec in Ew. cbn [andb] in Ew. fold t. unfold SZ_MACRO, SZ_LARGE in Ew. lia. }
      split; [exact IV2|]. eapply memonly_trans; eauto.
Qed.
