(** Freeing a block: transition of the invariant with blocks. *)
From Verif Require Import Word Res Mem SizeClassModel SizeClassProofs ChainModel Wp ChainInv ChainZip ChainList ChainFl ChainPrim ChainFind ChainSplit ChainMerge ChainOps ChainAlloc ChainFree ChainSpec ChainCore.
From Coq Require Import ZArith List Bool Lia Permutation.
Import ListNotations.
Open Scope Z_scope.

Lemma allfr_dec l : allfr l \/ exists ck, In ck l /\ snd ck <> Fr.
Proof.
  induction l as [|[c k] l IH]; [left; constructor|]. destruct k.
  - destruct IH as [IH|(ck & IH & E)]; [left; constructor; [reflexivity|exact IH]|right; exists ck; split; [right; exact IH|exact E]].
  - right. exists (c, Lk). split; [left; reflexivity|discriminate].
  - right. exists (c, Us p n d). split; [left; reflexivity|discriminate].
Qed.

Lemma bytes_segr A A' : map segr A' = map segr A -> bytes A' = bytes A.
Proof.
  intros H. unfold bytes. assert (E : forall X, map gsize X = map snd (map segr X)) by (intros X; rewrite map_map; reflexivity).
  rewrite !E, H. reflexivity.
Qed.

Lemma noadj_sub l1 l2 : noadj (l1 ++ l2) -> noadj l1 /\ noadj l2.
Proof. intros H. apply noadj_app in H. tauto. Qed.

Lemma bytes_drop g r m S1 sg S2 : World g r m (S1 ++ sg :: S2) -> bytes (S1 ++ S2) <= bytes (S1 ++ sg :: S2).
Proof.
  intros W. assert (H : segok g m sg) by (eapply w_segok; [exact W|apply in_mid; left; reflexivity]).
  destruct H as (_ & _ & H3 & _ & _ & H6 & _). apply cks_tot in H6. unfold bytes. rewrite !map_app, !fold_right_app. cbn [map fold_right].
  assert (FA : forall l x, fold_right Z.add x l = fold_right Z.add 0 l + x) by (induction l as [|y l IH]; intros; cbn; [lia|rewrite IH; lia]).
  rewrite (FA (map gsize S1) (gsize sg + _)), (FA (map gsize S1)). lia.
Qed.

(** What becomes of the chunk [a, e) of a freed block. *)
Definition freed (g : cfg) (A A' : list seg) (p e a : Z) (evs : list ev) : Prop :=
  (csrc g = true /\ exists b z, In (b, z) (map segr A) /\ b <= p < b + z /\ evs = [EPut b]) \/
  (csrc g = true /\ evs = [] /\ HUGE_LIMIT <= e - a <= HUGE_LIMIT + 16) \/
  (evs = [] /\ (csrc g = true -> e - a <= HUGE_LIMIT - 16) /\
   exists w t, In (w, t) (frees A') /\ w <= a /\ e <= w + t /\ (csrc g = true -> t <= MACRO_BLOC) /\
     ((forall w' t', In (w', t') (frees A) -> w' + t' <> a) \/ cmerge g = false -> w = a)).

Lemma frees_mid_in S1 b z l1 c l2 S2 : In (b + 32 + tot l1, c) (frees (S1 ++ mkSeg b z (l1 ++ (c, Fr) :: l2) :: S2)).
Proof.
  unfold frees. rewrite flat_map_app. apply in_or_app. right. cbn [flat_map gbase gchunks]. apply in_or_app. left.
  rewrite frees_from_app. apply in_or_app. right. left. reflexivity.
Qed.

Lemma free_core fuel g s B A F p n d :
  Core g s B A F -> In (mkBlk p n d) B -> bytes A < Z.of_nat fuel ->
  wp (chain_free fuel g p) s (fun _ s' => exists A' F' evs,
    Core g s' (rm p B) A' F' /\ trans s A s' A' (fun q => q = p) evs /\ bytes A' <= bytes A /\
    (evs = [] \/ exists b, evs = [EPut b]) /\
    exists e a, In (p, n, d, e) (used A) /\ get_chunk_unpadded p s = Ok (a + 15, s) /\ a + 16 <= p /\ (d <= 1 -> p = a + 16) /\
      freed g A A' p e a evs).
Proof.
  intros C HB Hf. assert (IV := co_inv _ _ _ _ _ C). assert (W := iv_w _ _ _ _ IV).
  destruct (core_in _ _ _ _ _ _ _ _ C HB) as (e & HU).
  destruct (used_zip _ _ _ _ _ HU) as (S1 & b & z & l1 & c & l2 & S2 & EA & Ee).
  set (a := b + 32 + tot l1) in *.
  assert (HS : In (mkSeg b z (l1 ++ (c, Us p n d) :: l2)) A) by (rewrite EA; apply in_mid; left; reflexivity).
  assert (SH : csrc g = true -> sbase s = 0 /\ z mod MACRO_BLOC = 0 /\ ((l1 = [] /\ l2 = [] /\ c = z - 48) \/
     (z = MACRO_BLOC /\ forall c0 k, In (c0, k) (l1 ++ (c, Us p n d) :: l2) -> k <> Fr -> c0 <= HUGE_LIMIT + 16))).
  { intros Hc. destruct (co_src _ _ _ _ _ C Hc) as (K1 & _ & K3). split; [exact K1|].
    destruct (K3 _ HS) as (J0 & [(p0 & n0 & d0 & J)|J]); cbn [gsize gchunks] in *; (split; [exact J0|]).
    - left. destruct l1 as [|x l1]; [|destruct l1; discriminate]. injection J as J _ _ _ J2. auto.
    - right. exact J. }
  assert (ND := used_nodup _ _ _ _ W).
  assert (PP : Permutation (used A) ((p, n, d, e) :: rest_used S1 b l1 e l2 S2)).
  { rewrite EA. change (l1 ++ (c, Us p n d) :: l2) with (l1 ++ [(c, Us p n d)] ++ l2).
    eapply Permutation_trans; [apply (used_perm S1 b z l1 _ l2 S2 a e); [reflexivity|cbn [tot]; lia]|].
    cbn [used_from app]. rewrite <- Ee. apply Permutation_refl. }
  assert (PB : Permutation (map strip (rest_used S1 b l1 e l2 S2)) (rm p B)).
  { apply (core_rm B (p, n, d, e)); [|exact (Permutation_NoDup (Permutation_map eptr PP) ND)].
    eapply Permutation_trans; [|exact (co_live _ _ _ _ _ C)]. apply Permutation_map. apply Permutation_sym. exact PP. }
  assert (REST : forall q m dd ee, In (q, m, dd, ee) (used A) -> q <> p -> In (q, m, dd, ee) (rest_used S1 b l1 e l2 S2)).
  { intros q m dd ee HI Hq. apply Permutation_in with (1 := PP) in HI. destruct HI as [HI|HI]; [|exact HI]. congruence. }
  set (A1 := S1 ++ mkSeg b z (l1 ++ (c, Lk) :: l2) :: S2).
  assert (PU1 : Permutation (used A1) (rest_used S1 b l1 e l2 S2)).
  { unfold A1. change (l1 ++ (c, Lk) :: l2) with (l1 ++ [(c, Lk)] ++ l2).
    apply (used_perm S1 b z l1 [(c, Lk)] l2 S2 a e); [reflexivity|cbn [tot]; lia]. }
  assert (W1 : World g (srng s) (smem s) A1).
  { rewrite EA in IV. exact (iv_w _ _ _ _ (inv_us_lk _ _ _ _ _ _ _ _ _ _ _ _ _ IV)). }
  assert (EZ : z = 48 + tot l1 + c + tot l2 /\ 0 <= tot l1 /\ 0 <= tot l2 /\ 32 <= c /\ c mod 16 = 0).
  { destruct (w_segok _ _ _ _ W _ HS) as (_ & _ & Q3 & _ & _ & Q6 & _). cbn [gsize gchunks gbase] in *.
    rewrite tot_app in Q3. cbn [tot] in Q3. apply cks_app in Q6 as (Q6 & Q7). cbn [cks] in Q7. destruct Q7 as (Q8 & Q9 & _ & _ & Q7).
    apply cks_tot in Q6. apply cks_tot in Q7. lia. }
  assert (HG : get_chunk_unpadded p s = Ok (a + 15, s) /\ a + 16 <= p /\ (d <= 1 -> p = a + 16) /\ b <= p < b + z).
  { assert (W0 := W). rewrite EA in W0. assert (HC := world_chunk _ _ _ _ _ _ _ _ _ _ _ _ W0 eq_refl).
    destruct HC as (_ & _ & _ & (K1 & K2 & K3 & K4 & K5 & (K6 & _)) & J1 & J2 & _).
    split; [|split; [exact K1|split; [exact K6|unfold a in *; lia]]].
    assert (G : wp (get_chunk_unpadded p) s (fun v s' => v = a + 15 /\ s' = s)) by (eapply live_chunk_unpadded; [exact W0|reflexivity|auto]).
    unfold wp in G. destruct (get_chunk_unpadded p s) as [[v s1]| | |]; try contradiction. destruct G as (-> & ->). reflexivity. }
  destruct HG as (HG1 & HG2 & HG3 & HG4).
  (* frame, from the bytes written *)
  assert (FR : forall s' A' , chg (smem s) (smem s') (scratch g A1) ->
     Permutation (used A') (rest_used S1 b l1 e l2 S2) ->
     (forall q m dd ee, In (q, m, dd, ee) (used A) -> ~ q = p ->
        In (q, m, dd, ee) (used A') /\ forall x, q <= x < ee -> smem s' x = smem s x) /\
     (forall x, (forall b z, In (b, z) (srng s) -> ~ b <= x < b + z) -> smem s' x = smem s x)).
  { intros s' A' CH PU. split.
    - intros q m dd ee HI Hq. assert (HI' := REST _ _ _ _ HI Hq).
      split; [apply Permutation_in with (1 := Permutation_sym PU); exact HI'|].
      intros x Hx. destruct (CH x) as [K|K]; [exact K|]. exfalso.
      apply Permutation_in with (1 := Permutation_sym PU1) in HI'.
      exact (used_not_scratch _ _ _ _ _ _ _ _ _ W1 HI' Hx K).
    - intros x Hx. destruct (CH x) as [K|K]; [exact K|]. exfalso.
      apply (scratch_rng _ _ _ _ _ W1) in K as (b0 & z0 & K1 & K2). exact (Hx b0 z0 K1 K2). }
  assert (IV0 := IV). rewrite EA in IV0.
  eapply wp_mono; [eapply (free_spec fuel g s F S1 b z l1 c p n d l2 S2); [exact IV0|rewrite <- EA; exact Hf|]|].
  { intros Hc. destruct (SH Hc) as (K1 & K2 & [(K3 & K4 & K5)|(K3 & _)]); split; auto. }
  intros _ s' (F' & CH & [(Hc & H1 & H2 & -> & IV')|[(Hc & H1 & H2 & H3 & IV' & MO)|(H1 & l1' & fl & fr & l2' & E1 & E2 & AF1 & AF2 & MG & NW & IV' & MO)]]); cbv zeta in *.
  - (* lost *)
    fold A1 in IV'. exists A1, F', []. destruct (SH Hc) as (K1 & K2 & K3).
    assert (K4 : z = MACRO_BLOC /\ c <= HUGE_LIMIT + 16 /\ forall c0 k, In (c0, k) (l1 ++ (c, Us p n d) :: l2) -> k <> Fr -> c0 <= HUGE_LIMIT + 16).
    { destruct K3 as [(K3 & K4 & K5)|(K3 & K4)].
      - exfalso. apply H2. rewrite K5. unfold MACRO_BLOC in *. lia.
      - split; [exact K3|]. split; [|exact K4]. apply (K4 c (Us p n d)); [apply in_mid; left; reflexivity|discriminate]. }
    destruct K4 as (K4 & K5 & K6).
    assert (ESG : map segr A1 = map segr A) by (rewrite EA; unfold A1; rewrite !map_app; reflexivity).
    split; [|split; [|split; [rewrite (bytes_segr _ _ ESG); lia|split; [left; reflexivity|]]]].
    3: { exists e, a. split; [exact HU|]. split; [exact HG1|]. split; [exact HG2|]. split; [exact HG3|]. right. left.
         split; [exact Hc|]. split; [reflexivity|]. unfold HUGE_LIMIT in *. lia. }
    + constructor.
      * exact IV'.
      * eapply Permutation_trans; [apply Permutation_map; exact PU1|exact PB].
      * intros sg HI. unfold A1 in HI. apply in_mid in HI as [->|HI]; [exact (co_al _ _ _ _ _ C _ HS)|].
        apply (co_al _ _ _ _ _ C). rewrite EA. apply in_mid. right. exact HI.
      * intros Hm sg HI. unfold A1 in HI. apply in_mid in HI as [->|HI].
        -- assert (N := co_merge _ _ _ _ _ C Hm _ HS). cbn [gchunks] in *. apply noadj_app in N as (N1 & N2 & N3).
           apply noadj_app. split; [exact N1|]. split; [|intros _; reflexivity]. cbn [noadj] in *. split; [discriminate|apply N2].
        -- apply (co_merge _ _ _ _ _ C Hm). rewrite EA. apply in_mid. right. exact HI.
      * intros sg c0 HI HL. unfold A1 in HI. apply in_mid in HI as [->|HI].
        -- cbn [gchunks] in HL. apply in_mid in HL as [HL|HL].
           ++ injection HL as ->. split; [exact Hc|]. unfold HUGE_LIMIT in *. lia.
           ++ apply (co_lk _ _ _ _ _ C _ _ HS). cbn [gchunks]. apply in_mid. right. exact HL.
        -- apply (co_lk _ _ _ _ _ C sg); [|exact HL]. rewrite EA. apply in_mid. right. exact HI.
      * intros _. destruct (co_src _ _ _ _ _ C Hc) as (J1 & J2 & J3). split; [exact J1|].
        split; [rewrite J2, <- (map_length segr A), <- ESG, map_length; reflexivity|].
        intros sg HI. unfold A1 in HI. apply in_mid in HI as [->|HI].
        -- split; cbn [gsize gchunks]; [exact K2|]. right. split; [exact K4|]. intros c0 k HI HK.
           apply in_mid in HI as [HI|HI]; [injection HI as -> _; exact K5|]. apply (K6 c0 k); [apply in_mid; right; exact HI|exact HK].
        -- apply J3. rewrite EA. apply in_mid. right. exact HI.
      * intros _ Hm sg HI. unfold A1 in HI. apply in_mid in HI as [->|HI].
        -- exists (c, Lk). cbn [gchunks snd]. split; [apply in_mid; left; reflexivity|discriminate].
        -- apply (co_busy _ _ _ _ _ C Hc Hm). rewrite EA. apply in_mid. right. exact HI.
      * intros Hc'. congruence.
    + destruct (FR s A1 (chg_refl _ _) PU1) as (FR1 & FR2).
      split; [reflexivity|]. split; [exact ESG|]. split; [reflexivity|]. split; [reflexivity|]. split; [exact FR1|].
      intros x Hx. reflexivity.
  - (* segment given back *)
    assert (PU : Permutation (used (S1 ++ S2)) (rest_used S1 b l1 e l2 S2)).
    { unfold rest_used. rewrite (nous_used l1), (nous_used l2) by (apply allfr_nous; assumption). cbn [app].
      unfold used. rewrite flat_map_app. apply Permutation_refl. }
    assert (ESG : map segr (S1 ++ S2) = fold_right apply_ev (map segr A) [EPut b]).
    { cbn [fold_right apply_ev]. assert (E := wd_rng _ _ _ _ (iv_w _ _ _ _ IV')). rewrite (memonly_rng _ _ MO) in E. cbn [shrunk set_cnt set_ev set_rng srng] in E.
      rewrite (wd_rng _ _ _ _ W), filter_app in E. cbn [filter] in E.
      assert (PD := w_pool_disj _ _ _ _ W _ HS). unfold disj2, POOL_SIZE in PD. cbn [fst snd gbase gsize] in PD.
      destruct (Z.eqb_spec (cpool g) b); [lia|]. cbn [negb] in E. apply app_inj_tail in E as (E & _). symmetry. exact E. }
    exists (S1 ++ S2), F', [EPut b]. split; [|split; [|split; [|split; [right; exists b; reflexivity|]]]].
    4: { exists e, a. split; [exact HU|]. split; [exact HG1|]. split; [exact HG2|]. split; [exact HG3|]. left.
         split; [exact Hc|]. exists b, z. split; [apply in_map_iff; exists (mkSeg b z (l1 ++ (c, Us p n d) :: l2)); split; [reflexivity|exact HS]|].
         split; [exact HG4|reflexivity]. }
    + destruct (co_src _ _ _ _ _ C Hc) as (J1 & J2 & J3).
      constructor.
      * exact IV'.
      * eapply Permutation_trans; [apply Permutation_map; exact PU|exact PB].
      * intros sg HI. apply (co_al _ _ _ _ _ C). rewrite EA. apply in_mid. right. exact HI.
      * intros Hm sg HI. apply (co_merge _ _ _ _ _ C Hm). rewrite EA. apply in_mid. right. exact HI.
      * intros sg c0 HI HL. apply (co_lk _ _ _ _ _ C sg); [|exact HL]. rewrite EA. apply in_mid. right. exact HI.
      * intros _. rewrite (memonly_base _ _ MO), (memonly_cnt _ _ MO). split; [exact J1|].
        split. { cbn [shrunk set_cnt scnt]. rewrite J2, EA, !app_length. cbn [length]. lia. }
        intros sg HI. apply J3. rewrite EA. apply in_mid. right. exact HI.
      * intros _ Hm sg HI. apply (co_busy _ _ _ _ _ C Hc Hm). rewrite EA. apply in_mid. right. exact HI.
      * intros Hc'. congruence.
    + destruct (FR s' (S1 ++ S2) CH PU) as (FR1 & FR2). destruct (memonly_rq _ _ MO) as (Q1 & Q2).
      split; [exact (memonly_evs _ _ MO)|]. split; [exact ESG|]. split; [exact Q1|]. split; [exact Q2|]. split; [exact FR1|].
      intros x Hx. apply FR2. intros b0 z0 K. apply Hx. left. exact K.
    + rewrite EA in W |- *. eapply bytes_drop. exact W.
  - (* back in the free lists *)
    set (t := tot fl + c + tot fr) in *.
    set (A' := S1 ++ mkSeg b z (l1' ++ (t, Fr) :: l2') :: S2) in *.
    assert (ESG : map segr A' = map segr A) by (rewrite EA; unfold A'; rewrite !map_app; reflexivity).
    assert (TM : tot (fl ++ [(c, Lk)] ++ fr) = t) by (rewrite !tot_app; cbn [tot]; unfold t; lia).
    assert (PU : Permutation (used A') (rest_used S1 b l1 e l2 S2)).
    { unfold A'. change (l1' ++ (t, Fr) :: l2') with (l1' ++ [(t, Fr)] ++ l2').
      eapply Permutation_trans; [apply (used_perm S1 b z l1' [(t, Fr)] l2' S2 (b + 32 + tot l1') (b + 32 + tot l1' + t)); [reflexivity|cbn [tot]; lia]|].
      cbn [used_from app]. unfold rest_used. rewrite E1, E2, !used_from_app.
      rewrite (nous_used fl), (nous_used fr) by (apply allfr_nous; assumption). rewrite app_nil_r. cbn [app].
      replace (e + tot fr) with (b + 32 + tot l1' + t); [apply Permutation_refl|].
      unfold t. rewrite Ee. unfold a. rewrite E1, tot_app. lia. }
    assert (CKS : forall ck, In ck (l1' ++ l2') -> In ck (l1 ++ (c, Us p n d) :: l2)).
    { intros ck HI. rewrite E1, E2. apply in_app_or in HI. apply in_or_app. destruct HI as [HI|HI].
      - left. apply in_or_app. left. exact HI.
      - right. right. apply in_or_app. right. exact HI. }
    exists A', F', []. split; [|split; [|split; [rewrite (bytes_segr _ _ ESG); lia|split; [left; reflexivity|]]]].
    3: { exists e, a. split; [exact HU|]. split; [exact HG1|]. split; [exact HG2|]. split; [exact HG3|]. right. right.
         split; [reflexivity|]. split; [intros Hc; specialize (H1 Hc); unfold HUGE_LIMIT in *; lia|].
         exists (b + 32 + tot l1'), t. split; [apply frees_mid_in|].
         assert (T1 : tot l1 = tot l1' + tot fl) by (rewrite E1, tot_app; reflexivity).
         assert (T2 : tot l2 = tot fr + tot l2') by (rewrite E2, tot_app; reflexivity).
         assert (T3 : 0 <= tot fl /\ 0 <= tot fr /\ 0 <= tot l1' /\ 0 <= tot l2').
         { destruct (w_segok _ _ _ _ W _ HS) as (_ & _ & _ & _ & _ & Q6 & _). cbn [gbase gchunks] in Q6. rewrite E1, E2 in Q6.
           rewrite <- app_assoc in Q6. apply cks_app in Q6 as (Q1 & Q6). apply cks_app in Q6 as (Q2 & Q6). cbn [cks] in Q6. destruct Q6 as (_ & _ & _ & _ & Q6).
           apply cks_app in Q6 as (Q3 & Q4). apply cks_tot in Q1, Q2, Q3, Q4. auto. }
         split; [unfold a; lia|]. split; [unfold a, t in *; lia|]. split.
         - intros Hc. specialize (H1 Hc). destruct (SH Hc) as (_ & K2 & [(K3 & K4 & K5)|(K3 & _)]); [exfalso; unfold HUGE_LIMIT, MACRO_BLOC in *; lia|]. unfold t. lia.
         - intros HX. destruct fl as [|x fl] using rev_ind; [unfold a; rewrite T1; cbn [tot]; lia|]. exfalso. clear IHfl.
           destruct HX as [HX|HX]; [|rewrite HX in MG; destruct MG as (MG & _); destruct fl; discriminate].
           destruct x as [c0 k0]. apply Forall_app in AF1 as (_ & AF1). inversion AF1 as [|? ? AK _]; subst. cbn in AK. subst k0.
           apply (HX (b + 32 + tot (l1' ++ fl)) c0).
           + replace ((l1' ++ fl ++ [(c0, Fr)]) ++ (c, Us p n d) :: fr ++ l2') with ((l1' ++ fl) ++ (c0, Fr) :: (c, Us p n d) :: fr ++ l2') by (rewrite <- !app_assoc; reflexivity).
             apply frees_mid_in.
           + unfold a. rewrite !tot_app. cbn [tot]. lia. }
    + assert (SH2 : csrc g = true -> z = MACRO_BLOC /\ forall c0 k, In (c0, k) (l1 ++ (c, Us p n d) :: l2) -> k <> Fr -> c0 <= HUGE_LIMIT + 16).
      { intros Hc. specialize (H1 Hc). destruct (SH Hc) as (_ & K2 & [(K3 & K4 & K5)|K3]); [|exact K3].
        exfalso. unfold HUGE_LIMIT, MACRO_BLOC in *. lia. }
      assert (NA : cmerge g = true -> noadj (l1' ++ (t, Fr) :: l2')).
      { intros Hm. rewrite Hm in MG. destruct MG as (M1 & M2).
        assert (N := co_merge _ _ _ _ _ C Hm _ HS). cbn [gchunks] in N. rewrite E1, E2 in N.
        apply noadj_sub in N as (N1 & N2). apply noadj_sub in N1 as (N1 & _). cbn [noadj] in N2. destruct N2 as (_ & N2). apply noadj_sub in N2 as (_ & N2).
        apply noadj_app. split; [exact N1|]. split.
        - split; [|exact N2]. intros _. destruct (firstfr l2') eqn:E; [|reflexivity]. exfalso. apply M2. apply begfr_first. exact E.
        - intros E. exfalso. apply M1. apply endfr_last. exact E. }
      constructor.
      * exact IV'.
      * eapply Permutation_trans; [apply Permutation_map; exact PU|exact PB].
      * intros sg HI. unfold A' in HI. apply in_mid in HI as [->|HI]; [exact (co_al _ _ _ _ _ C _ HS)|].
        apply (co_al _ _ _ _ _ C). rewrite EA. apply in_mid. right. exact HI.
      * intros Hm sg HI. unfold A' in HI. apply in_mid in HI as [->|HI]; [exact (NA Hm)|].
        apply (co_merge _ _ _ _ _ C Hm). rewrite EA. apply in_mid. right. exact HI.
      * intros sg c0 HI HL. unfold A' in HI. apply in_mid in HI as [->|HI].
        -- cbn [gchunks] in HL. apply in_mid in HL as [HL|HL]; [discriminate|].
           apply (co_lk _ _ _ _ _ C _ _ HS). exact (CKS _ HL).
        -- apply (co_lk _ _ _ _ _ C sg); [|exact HL]. rewrite EA. apply in_mid. right. exact HI.
      * intros Hc. destruct (co_src _ _ _ _ _ C Hc) as (J1 & J2 & J3). rewrite (memonly_base _ _ MO), (memonly_cnt _ _ MO). split; [exact J1|].
        split; [rewrite J2, <- (map_length segr A), <- ESG, map_length; reflexivity|].
        intros sg HI. unfold A' in HI. apply in_mid in HI as [->|HI].
        -- destruct (SH2 Hc) as (K1 & K2). split; cbn [gsize gchunks]; [rewrite K1; reflexivity|]. right. split; [exact K1|].
           intros c0 k HI HK. apply in_mid in HI as [HI|HI]; [congruence|]. exact (K2 _ _ (CKS _ HI) HK).
        -- apply J3. rewrite EA. apply in_mid. right. exact HI.
      * intros Hc Hm sg HI. unfold A' in HI. apply in_mid in HI as [->|HI].
        -- cbn [gchunks]. destruct (allfr_dec (l1' ++ (t, Fr) :: l2')) as [AF|K]; [|exact K].
           exfalso. destruct (allfr_noadj _ AF (NA Hm)) as [K|(c0 & K)]; [destruct l1'; discriminate|].
           destruct l1' as [|x l1']; [|destruct l1'; discriminate]. injection K as K1 K2. subst l2'.
           destruct (SH2 Hc) as (K3 & _). apply (NW Hc).
           assert (K4 : t = z - 48).
           { unfold t. rewrite app_nil_r in E2. cbn [app] in E1. subst fl fr. lia. }
           rewrite K4, K3. reflexivity.
        -- apply (co_busy _ _ _ _ _ C Hc Hm). rewrite EA. apply in_mid. right. exact HI.
      * intros Hc. rewrite (memonly_base _ _ MO), (memonly_send _ _ MO).
        destruct (co_base _ _ _ _ _ C Hc) as [(K1 & K2)|(A0 & sg & K1 & K2 & K3)].
        { rewrite K1 in EA. destruct S1; discriminate. }
        right. clear - K1 K2 K3 EA A'. destruct S2 as [|sg2 S2] using rev_ind.
        -- exists S1, (mkSeg b z (l1' ++ (t, Fr) :: l2')). split; [reflexivity|].
           rewrite K1 in EA. apply app_inj_tail in EA as (_ & E). rewrite K2, K3, E. auto.
        -- exists (S1 ++ mkSeg b z (l1' ++ (t, Fr) :: l2') :: S2), sg2.
           split; [unfold A'; rewrite <- app_assoc; reflexivity|].
           rewrite K1 in EA. replace (S1 ++ mkSeg b z (l1 ++ (c, Us p n d) :: l2) :: S2 ++ [sg2]) with ((S1 ++ mkSeg b z (l1 ++ (c, Us p n d) :: l2) :: S2) ++ [sg2]) in EA by (rewrite <- app_assoc; reflexivity).
           apply app_inj_tail in EA as (_ & E). subst sg2. auto.
    + destruct (FR s' A' CH PU) as (FR1 & FR2). destruct (memonly_rq _ _ MO) as (Q1 & Q2).
      split; [exact (memonly_evs _ _ MO)|]. split; [exact ESG|]. split; [exact Q1|]. split; [exact Q2|]. split; [exact FR1|].
      intros x Hx. apply FR2. intros b0 z0 K. apply Hx. left. exact K.
Qed.
