(** Conventions, reallocation, emptiness test, reuse after free, invalid pointers, remote records. *)
From Verif Require Import Word Res Mem SizeClassModel SizeClassProofs ChainModel Wp ChainInv ChainZip ChainList ChainFl ChainPrim ChainFind ChainSplit ChainMerge ChainOps ChainAlloc ChainFree ChainSpec ChainCore ChainCoreFree ChainStep ChainRealloc ChainQueue ChainRefill ChainFuel ChainTrace ChainEv ChainProps ChainWalk ChainCap ChainSrc.
From Coq Require Import ZArith List Bool Lia Permutation.
Import ListNotations.
Open Scope Z_scope.

Lemma wp_eq {A} (x : M A) s a : wp x s (fun v s' => v = a /\ s' = s) -> x s = Ok (a, s).
Proof. unfold wp. destruct (x s) as [[v s1]| | |]; try contradiction. intros (-> & ->). reflexivity. Qed.

Lemma block_pos g s o : reach g s o -> forall b, In b (blocks o) -> 0 < bp b.
Proof.
  intros R b H. destruct (reach_good _ _ _ R) as (A & F & G). destruct (blocks_used _ _ _ _ _ _ G H) as (e & HU).
  assert (W := good_world _ _ _ _ _ G). destruct (used_in _ _ _ _ _ _ _ _ W HU) as (sg & J1 & J2 & _).
  destruct (w_segok _ _ _ _ W _ J1) as (K & _). lia.
Qed.

(** ** C09 *)
Lemma rm_none p l : (forall b, In b l -> bp b <> p) -> rm p l = l.
Proof. intros H. apply filter_all. intros b Hb. specialize (H b Hb). lia. Qed.

Lemma obs_eta o : mkObs (live o) (pend o) (segs o) = o.
Proof. destruct o; reflexivity. Qed.

Lemma conventions g s o : reach g s o -> forall fuel,
  (forall d gr, step fuel g (OAlloc d 0 gr) s = Ok (0, clear_ev s) /\ next o (OAlloc d 0 gr) 0 [] = o) /\
  (step fuel g (OFree 0) s = Ok (0, clear_ev s) /\ next o (OFree 0) 0 [] = o) /\
  (forall h gr, step fuel g (ORealloc h 0 0 gr) s = Ok (0, clear_ev s) /\ next o (ORealloc h 0 0 gr) 0 [] = o) /\
  (forall h n gr, n <> 0 -> step fuel g (ORealloc h 0 n gr) s = step fuel g (OAlloc h n gr) s /\
     forall r evs, next o (ORealloc h 0 n gr) r evs = next o (OAlloc h n gr) r evs) /\
  (forall h p gr, p <> 0 -> step fuel g (ORealloc h p 0 gr) s = step fuel g (OFree p) s /\
     forall r evs, next o (ORealloc h p 0 gr) r evs = next o (OFree p) r evs) /\
  (forall p r s', step fuel g (OFree p) s = Ok (r, s') -> r = 0).
Proof.
  intros R fuel. repeat split; intros; unfold step; cbn [exec].
  - apply obs_eta.
  - cbn [next fold_right]. rewrite rm_none; [apply obs_eta|]. intros b Hb. assert (K := block_pos _ _ _ R b (in_or_app _ _ _ (or_introl Hb))). lia.
  - apply obs_eta.
  - unfold chain_realloc. cbn [Z.eqb andb]. destruct (Z.eqb_spec n 0); [contradiction|reflexivity].
  - unfold chain_realloc. destruct (Z.eqb_spec p 0); [contradiction|]. reflexivity.
  - cbn [next]. destruct (Z.eqb_spec p 0); [contradiction|reflexivity].
  - unfold step in H. cbn [exec] in H. unfold bind in H. destruct (chain_free fuel g p (clear_ev s)) as [[u s1]| | |]; try discriminate.
    cbn in H. injection H as <- _. reflexivity.
Qed.

(** ** C10 *)
Lemma in_resize p n l b : In b l -> bp b = p -> In (mkBlk p n (bd b)) (resize p n l).
Proof. intros H E. unfold resize. apply in_map_iff. exists b. rewrite E, Z.eqb_refl. auto. Qed.

Lemma blocks_nodup g s o : reach g s o -> NoDup (map bp (blocks o)).
Proof. intros R. apply (blocks_apart _ _ _ R). Qed.

Lemma not_pend g s o p : reach g s o -> In p (map bp (live o)) -> ~ In p (map bp (pend o)).
Proof. intros R H K. destruct (reach_good _ _ _ R) as (A & F & G). exact (pend_not_live _ _ _ _ _ _ (gd_core _ _ _ _ _ G) H K). Qed.

Lemma realloc_keeps g s o h p n gr fuel r s' m d u : reach g s o -> valid g s o (ORealloc h p n gr) ->
  step fuel g (ORealloc h p n gr) s = Ok (r, s') -> In (mkBlk p m d) (live o) -> n <> 0 -> r <> 0 -> usable s p u ->
  let o' := next o (ORealloc h p n gr) r (sevs s') in
  (exists d' u', In (mkBlk r n d') (live o') /\ usable s' r u' /\ n <= u') /\ m <= u /\
  (forall i, 0 <= i < Z.min u n -> smem s' (r + i) = smem s (p + i)) /\
  (r <> p -> ~ In p (map bp (blocks o')) /\ ~ In r (map bp (blocks o))).
Proof.
  intros R V E HL Hn Hr HU o'. assert (R' := reach_step _ _ _ _ _ _ _ R V E). fold o' in R'.
  assert (HB : In (mkBlk p m d) (blocks o)) by (apply in_or_app; left; exact HL).
  assert (Hp := block_pos _ _ _ R _ HB). cbn [bp] in Hp.
  destruct (reach_good _ _ _ R) as (A & F & G).
  destruct (block_info _ _ _ _ _ _ G HB) as (u1 & x & z & U1 & U2 & U3 & U4 & U5 & U6 & U7). cbn [bp bn bd] in *.
  assert (u1 = u) by (eapply usable_eq; eauto). subst u1.
  destruct (realloc_info _ _ _ _ _ _ _ _ _ _ _ _ G V E) as (MV & _ & _).
  assert (IN : exists d', In (mkBlk r n d') (live o')).
  { unfold o'. cbn [next live]. destruct (Z.eqb_spec p 0); [lia|]. destruct (Z.eqb_spec n 0); [contradiction|].
    destruct (Z.eqb_spec r p) as [->|]; [exists d; exact (in_resize p n (live o) (mkBlk p m d) HL eq_refl)|].
    destruct (Z.eqb_spec r 0); [contradiction|]. exists h. left. reflexivity. }
  destruct IN as (d' & IN). assert (IB : In (mkBlk r n d') (blocks o')) by (apply in_or_app; left; exact IN).
  split.
  { destruct (blocks_inside _ _ _ R' _ IB) as (u' & _ & _ & K1 & K2 & _). exists d', u'. auto. }
  split; [lia|]. split.
  { intros i Hi. apply (MV ltac:(lia) Hr m d (p + u) i U2). lia. }
  intros NR. split.
  - intros K. unfold blocks in K. rewrite map_app in K. apply in_app_or in K as [K|K].
    + unfold o' in K. cbn [next live] in K. destruct (Z.eqb_spec p 0); [lia|]. destruct (Z.eqb_spec n 0); [contradiction|].
      destruct (Z.eqb_spec r p); [contradiction|]. destruct (Z.eqb_spec r 0); [contradiction|]. cbn [map bp] in K.
      destruct K as [K|K]; [contradiction|]. apply in_map_iff in K as (b & K1 & K2). apply filter_In in K2 as (_ & K2). lia.
    + apply (not_pend _ _ _ p R); [|exact K]. apply in_map_iff. exists (mkBlk p m d). auto.
  - intros K. assert (ND := blocks_nodup _ _ _ R'). unfold blocks in ND, K. unfold o' in ND. cbn [next live pend] in ND.
    destruct (Z.eqb_spec p 0); [lia|]. destruct (Z.eqb_spec n 0); [contradiction|].
    destruct (Z.eqb_spec r p); [contradiction|]. destruct (Z.eqb_spec r 0); [contradiction|]. cbn [map bp app] in ND.
    inversion ND as [|? ? N1 _]; subst. apply N1. rewrite map_app in *. apply in_app_or in K. apply in_or_app. destruct K as [K|K]; [left|right; exact K].
    apply in_map_iff in K as (b & K1 & K2). apply in_map_iff. exists b. split; [exact K1|]. apply filter_In. split; [exact K2|]. lia.
Qed.

(** ** C19 *)
Lemma can_destroy_first g s o l x z : reach g s o -> csrc g = false -> segs o = l ++ [(x, z)] ->
  exists b, can_destroy g s = Ok (b, s) /\
    (b = true -> forall k, In k (blocks o) -> inside (x, z) k = false) /\
    (cmerge g = true -> (forall k, In k (blocks o) -> inside (x, z) k = false) -> b = true).
Proof.
  intros R Hc ES. assert (HI : In (x, z) (segs o)) by (rewrite ES; apply in_or_app; right; left; reflexivity).
  assert (BG := seg_big _ _ _ R _ _ HI). assert (EM := fun Hm => empty_segment _ _ _ R Hc Hm x z HI).
  destruct (reach_good _ _ _ R) as (A & F & G). assert (W := good_world _ _ _ _ _ G). assert (C := gd_core _ _ _ _ _ G).
  destruct (co_base _ _ _ _ _ C Hc) as [(K & _)|(A0 & sg & K1 & K2 & K3)].
  { rewrite (gd_segs _ _ _ _ _ G), K in ES. destruct l; discriminate. }
  rewrite (gd_segs _ _ _ _ _ G), K1, map_app in ES. apply app_inj_tail in ES as (_ & ES). unfold segr in ES. injection ES as Ex Ez.
  assert (HS : In sg A) by (rewrite K1; apply in_or_app; right; left; reflexivity).
  destruct (w_segok _ _ _ _ W _ HS) as (H1 & H2 & H3 & H4 & H5 & H6 & H7).
  assert (RG := w_in_rng _ _ _ _ W _ HS). rewrite Ex, Ez in *.
  destruct (gchunks sg) as [|[c k] lc] eqn:EC; [cbn in H3; lia|]. assert (T := cks_tot _ _ _ _ H6).
  cbn [cks tot] in H3, H6. destruct H6 as (J1 & J2 & (J3 & J4 & J5) & J6 & J7). assert (T' := cks_tot _ _ _ _ J7).
  assert (BW := W64_val). assert (AM : AMAX < W64) by (rewrite W64_val; reflexivity).
  exists ((c =? z - 48) && (i_state (info_of k) =? S_FREE)). split; [|split].
  - unfold can_destroy, get_size, get_state, bind, getst, ret, loadn. cbn [rbind]. unfold SZ_MACRO, SZ_LARGE. rewrite K2.
    rewrite (accb_intro _ x z) by (try exact RG; lia). cbn [rbind].
    rewrite (accb_intro _ x z) by (try exact RG; lia). cbn [rbind]. rewrite J3, J5, K3.
    rewrite (add64_small c 16) by lia. rewrite (add64_small (c + 16) 32) by lia. rewrite sub64_small by lia.
    replace (c + 16 + 32 =? x + z - x) with (c =? z - 48) by lia. reflexivity.
  - intros Hb b HB. destruct k; cbn in Hb; try lia. assert (HC : c = z - 48) by lia. subst c.
    assert (lc = []). { destruct lc as [|[c' k'] lc]; [reflexivity|]. cbn [tot cks] in J7, H3. destruct J7 as (J7 & _ & _ & _ & J8). assert (T2 := cks_tot _ _ _ _ J8). lia. } subst lc.
    assert (BS := blocks_seg _ _ _ _ _ sg G HS). rewrite EC in BS. cbn in BS. apply Permutation_nil in BS.
    destruct (inside (x, z) b) eqn:EI; [exfalso|reflexivity].
    assert (K : In b (filter (inside (segr sg)) (blocks o))) by (apply filter_In; unfold segr; rewrite Ex, Ez; auto).
    rewrite BS in K. exact K.
  - intros Hm HB. specialize (EM Hm (filter_none _ _ HB)).
    assert (CD := chunks_desc _ _ _ _ W HS). unfold segr in CD. rewrite Ex, Ez, EC in CD. rewrite EM in CD. cbn [desc] in CD.
    injection CD as CD1 CD2 _. destruct k; cbn in CD2; try discriminate. cbn. lia.
Qed.

Lemma inside_one g s o x z : reach g s o -> segs o = [(x, z)] -> forall b, In b (blocks o) -> inside (x, z) b = true.
Proof.
  intros R ES b HB. destruct (blocks_inside _ _ _ R b HB) as (u & x1 & z1 & K1 & K2 & K3 & K4 & K5 & K6). rewrite ES in K4.
  destruct K4 as [K4|[]]. injection K4 as <- <-. unfold inside. cbn [fst snd]. lia.
Qed.
Lemma can_destroy_exact g s o x z : reach g s o -> csrc g = false -> cmerge g = true -> segs o = [(x, z)] ->
  exists b, can_destroy g s = Ok (b, s) /\ (b = true <-> blocks o = []).
Proof.
  intros R Hc Hm ES. destruct (can_destroy_first g s o [] x z R Hc ES) as (b & K1 & K2 & K3). exists b. split; [exact K1|]. split.
  - intros Hb. destruct (blocks o) as [|k l] eqn:EB; [reflexivity|exfalso]. assert (I1 := inside_one _ _ _ _ _ R ES k).
    rewrite EB in I1. specialize (I1 (or_introl eq_refl)). rewrite (K2 Hb k (or_introl eq_refl)) in I1. discriminate.
  - intros EB. apply K3; [exact Hm|]. rewrite EB. intros k [].
Qed.

(** ** C23 *)
Lemma free_info g s o p n d fuel r s' : reach g s o -> In (mkBlk p n d) (live o) -> step fuel g (OFree p) s = Ok (r, s') ->
  exists A F A' F' e a, Good g s o A F /\ Good g s' (next o (OFree p) r (sevs s')) A' F' /\
    In (p, n, d, e) (used A) /\ get_chunk_unpadded p s = Ok (a + 15, s) /\ a + 16 <= p /\ (d <= 1 -> p = a + 16) /\
    freed g A A' p e a (sevs s').
Proof.
  intros R HL E. assert (R' := reach_good _ _ _ R). destruct R' as (A & F & G). exists A, F.
  assert (HB : In (mkBlk p n d) (live o ++ pend o)) by (apply in_or_app; left; exact HL).
  pattern r, s'. eapply (step_any fuel g s o (OFree p) r s'); [|exact E]. cbv beta. intros f Hf. cbn [exec]. unfold fuel_ok in Hf. cbn [extra] in Hf.
  rewrite (held_bytes _ _ (gd_segs _ _ _ _ _ G)) in Hf. apply wp_bind.
  eapply wp_mono; [eapply (free_core f g (clear_ev s) _ A F p n d); [apply core_clear; exact (gd_core _ _ _ _ _ G)|exact HB|lia]|].
  intros _ s1 (A' & F' & evs & C' & T & _ & _ & e & a & H1 & H2 & H3 & H4 & H5). apply wp_ret. exists A', F', e, a.
  assert (T' := T). destruct T as (T1 & T2 & _). cbn [clear_ev sevs] in T1. rewrite app_nil_r in T1. rewrite T1.
  split; [exact G|]. split.
  { constructor; cbn [next live pend segs].
    - rewrite <- (rm_pend _ _ _ _ _ _ _ _ (gd_core _ _ _ _ _ G) HL). exact C'.
    - rewrite (gd_segs _ _ _ _ _ G). symmetry. exact T2.
    - eapply queue_trans; [apply core_clear; exact (gd_core _ _ _ _ _ G)|exact (gd_queue _ _ _ _ _ G)|exact T'|].
      intros b Hb. eapply nodup_not_other; [eapply core_nodup; exact (gd_core _ _ _ _ _ G)|exact HL|exact Hb]. }
  split; [exact H1|]. split; [|auto].
  assert (W := good_world _ _ _ _ _ G). destruct (used_zip _ _ _ _ _ H1) as (S1 & b & z & l1 & c & l2 & S2 & EA & Ee). rewrite EA in W.
  assert (X1 : wp (get_chunk_unpadded p) s (fun v s'' => v = b + 32 + tot l1 + 15 /\ s'' = s)) by (eapply live_chunk_unpadded; [exact W|reflexivity|auto]).
  assert (X2 : wp (get_chunk_unpadded p) (clear_ev s) (fun v s'' => v = b + 32 + tot l1 + 15 /\ s'' = clear_ev s)) by (eapply (live_chunk_unpadded g (clear_ev s)); [exact W|reflexivity|auto]).
  apply wp_eq in X1. apply wp_eq in X2. rewrite X2 in H2. rewrite X1. congruence.
Qed.

(** What becomes of the bytes of a freed block. *)
Lemma free_fate g s o p n d fuel r s' : reach g s o -> In (mkBlk p n d) (live o) -> step fuel g (OFree p) s = Ok (r, s') ->
  let o' := next o (OFree p) r (sevs s') in let w := fst (occ (smem s) p) in let c := snd (occ (smem s) p) in
  (csrc g = true /\ exists b z, In (b, z) (segs o) /\ b <= p < b + z /\ sevs s' = [EPut b]) \/
  (csrc g = true /\ sevs s' = [] /\ 1048576 <= c <= 1048576 + 16) \/
  (sevs s' = [] /\ (csrc g = true -> c <= 1048576 - 16) /\
    exists x z w' t, In (x, z) (segs o') /\ In (w', t) (free_in (smem s') (x, z)) /\ w' <= w /\ w + c <= w' + t /\
      (csrc g = true -> t <= 2097152) /\
      ((forall v t', In (v, t') (all_free (smem s) o) -> v + t' <> w) \/ cmerge g = false -> w' = w)).
Proof.
  intros R HL E o' w c. destruct (free_info _ _ _ _ _ _ _ _ _ R HL E) as (A & F & A' & F' & e & a & G & G' & H1 & H2 & H3 & H4 & H5).
  assert (HB : In (mkBlk p n d) (blocks o)) by (apply in_or_app; left; exact HL).
  assert (US := usable_ok _ _ _ _ _ _ _ _ _ G H1).
  destruct (block_occ _ _ _ R (mkBlk p n d) (e - p) HB US) as (w1 & c1 & x & z & K1 & K2 & K3 & K4 & K5 & K6 & K7 & K8 & K9).
  cbn [bp bd] in *. rewrite H2 in K9. injection K9 as K9. unfold w, c. rewrite K1. cbn [fst snd].
  assert (w1 = a) by lia. subst w1. replace c1 with (e - a) by lia. unfold freed in H5. unfold HUGE_LIMIT, MACRO_BLOC in H5.
  rewrite <- (gd_segs _ _ _ _ _ G) in H5.
  destruct H5 as [H5|[H5|(H5 & H6 & w' & t & H7 & H8 & H9 & H10 & H11)]]; [left; exact H5|right; left; exact H5|right; right].
  split; [exact H5|]. split; [exact H6|]. assert (AF := all_free_eq _ _ _ _ _ G'). rewrite <- AF in H7. unfold all_free in H7.
  apply in_flat_map in H7 as ((x' & z') & Q1 & Q2). exists x', z', w', t. split; [exact Q1|]. split; [exact Q2|].
  split; [lia|]. split; [lia|]. split; [exact H10|]. rewrite (all_free_eq _ _ _ _ _ G). exact H11.
Qed.

(** A later request that fits in the bytes of the freed block is served without the help of the source. *)
Lemma free_reusable g s o p n d fuel r s' fuel2 d2 n2 gr r2 s2 : reach g s o -> In (mkBlk p n d) (live o) ->
  step fuel g (OFree p) s = Ok (r, s') -> sevs s' = [] -> let c := snd (occ (smem s) p) in
  (if csrc g then ~ (1048576 <= c <= 1048576 + 16) else forall x z, In (x, z) (segs o) -> z <= 2097152 + 48) ->
  let o' := next o (OFree p) r (sevs s') in
  valid g s' o' (OAlloc d2 n2 gr) -> 0 < n2 -> room d2 n2 <= c -> step fuel2 g (OAlloc d2 n2 gr) s' = Ok (r2, s2) ->
  r2 <> 0 /\ sevs s2 = [].
Proof.
  intros R HL E EV c HC o' V Hn HR E2.
  assert (VF : valid g s o (OFree p)) by (right; eauto). assert (R' := reach_step _ _ _ _ _ _ _ R VF E). fold o' in R'.
  destruct (free_fate _ _ _ _ _ _ _ _ _ R HL E) as [(Hc & b & z & _ & _ & K)|[(Hc & _ & K)|(_ & H1 & x & z & w' & t & H2 & H3 & H4 & H5 & H6 & _)]].
  - congruence.
  - rewrite Hc in HC. contradiction.
  - fold o' in H2. fold c in H5, H1. assert (SZ : csrc g = false -> t <= 2097152).
    { intros Hc. rewrite Hc in HC. destruct (reach_good _ _ _ R') as (A' & F' & G').
      assert (ES : segs o' = segs o) by (unfold o'; rewrite EV; reflexivity).
      assert (HF : In (w', t) (all_free (smem s') o')) by (apply in_flat_map; exists (x, z); auto).
      rewrite (all_free_eq _ _ _ _ _ G') in HF. destruct (frees_16 _ _ _ _ _ _ (good_world _ _ _ _ _ G') HF) as (_ & _ & sg & Q1 & Q2 & Q3).
      specialize (HC (gbase sg) (gsize sg)). rewrite <- ES, (gd_segs _ _ _ _ _ G') in HC. specialize (HC (in_map segr _ _ Q1)). lia. }
    assert (HT : t <= 2097152) by (destruct (csrc g); auto).
    apply (alloc_succeeds _ _ _ _ _ _ _ _ _ R' V E2 Hn).
    + intros (Hc & HH). specialize (H1 Hc). unfold huge in HH. unfold room in HR. clear - HH HR H1. lia.
    + exists x, z, w', t. split; [exact H2|]. split; [exact H3|]. lia.
Qed.

(** The band: a free of such a block changes nothing at all. *)
Lemma free_band g s o p n d fuel : reach g s o -> In (mkBlk p n d) (live o) -> csrc g = true ->
  1048576 <= snd (occ (smem s) p) <= 1048576 + 16 -> step fuel g (OFree p) s = Ok (0, clear_ev s).
Proof.
  intros R HL Hc HC.
  assert (HB : In (mkBlk p n d) (blocks o)) by (apply in_or_app; left; exact HL).
  destruct (blocks_inside _ _ _ R _ HB) as (u & _ & _ & US & _).
  destruct (block_occ _ _ _ R (mkBlk p n d) u HB US) as (w & c & x & z & K1 & K2 & K3 & K4 & K5 & K6 & K7 & K8 & K9).
  cbn [bp bd] in *. rewrite K1 in HC. cbn [snd] in HC. destruct (reach_good _ _ _ R) as (A & F & G). assert (W := good_world _ _ _ _ _ G).
  destruct (blocks_used _ _ _ _ _ _ G HB) as (e & HU). cbn [bp bn bd] in HU.
  destruct (used_zip _ _ _ _ _ HU) as (S1 & b & zz & l1 & c' & l2 & S2 & EA & Ee). rewrite EA in W.
  assert (W' : World g (srng (clear_ev s)) (smem (clear_ev s)) (S1 ++ mkSeg b zz (l1 ++ (c', Us p n d) :: l2) :: S2)) by exact W.
  assert (X1 : get_chunk_unpadded p s = Ok (b + 32 + tot l1 + 15, s)) by (apply wp_eq; eapply live_chunk_unpadded; [exact W|reflexivity|auto]).
  assert (X2 : get_chunk_unpadded p (clear_ev s) = Ok (b + 32 + tot l1 + 15, clear_ev s)) by (apply wp_eq; eapply live_chunk_unpadded; [exact W'|reflexivity|auto]).
  assert (X3 : vsize (b + 32 + tot l1 + 15) (clear_ev s) = Ok (c', clear_ev s)) by (apply wp_eq; eapply wp_vsize; [exact W'|reflexivity|auto]).
  rewrite X1 in K9. injection K9 as K9.
  assert (HX := world_chunk _ _ _ _ _ _ _ _ _ _ _ _ W eq_refl). destruct HX as (Y1 & Y2 & (Y3 & Y4 & Y5) & Y6 & Y7 & Y8 & Y9 & Y10 & Y11).
  assert (UE := usable_ok _ _ _ _ _ _ _ _ _ G HU). assert (u = e - p) by (eapply usable_eq; eauto). subst u.
  assert (EC : c' = c) by lia.
  assert (X4 : get_state (b + 32 + tot l1 + 15) (clear_ev s) = Ok (1, clear_ev s)).
  { unfold get_state, bind, loadn, ret. cbn [clear_ev srng smem]. rewrite (accb_intro _ b zz (b + 32 + tot l1 + 15)); [|exact (proj1 Y11)|lia|lia].
    cbn [rbind]. rewrite Y5. reflexivity. }
  rewrite EC in X3.
  assert (HG : is_huge g c = true).
  { unfold is_huge, calc_chunk_size, HUGE_LIMIT. rewrite Hc. cbn [andb]. cbv zeta. assert (BW := W64_val). rewrite (add64_small c 16) by lia. destruct (c + 16 <=? 32) eqn:EE; lia. }
  assert (X5 : free_macro_bloc g (b + 32 + tot l1 + 15) (clear_ev s) = Ok (tt, clear_ev s)).
  { unfold free_macro_bloc, bind. rewrite X3. cbn [rbind].
    replace (negb (c mod MACRO_BLOC =? MACRO_BLOC - SZ_MACRO - SZ_LARGE)) with true; [reflexivity|].
    unfold MACRO_BLOC, SZ_MACRO, SZ_LARGE. rewrite Z.mod_small by lia. lia. }
  unfold step. cbn [exec]. unfold bind at 1.
  assert (X6 : chain_free fuel g p (clear_ev s) = Ok (tt, clear_ev s)); [|rewrite X6; reflexivity].
  unfold chain_free. destruct (Z.eqb_spec p 0) as [Ep|Ep]; [lia|].
  unfold bind at 1. rewrite X2. cbn [rbind]. destruct (Z.eqb_spec (b + 32 + tot l1 + 15) 0); [lia|].
  unfold bind at 1. rewrite X4. cbn [rbind]. unfold bind at 1. cbn [Z.eqb S_ALLOC Pos.eqb assume ret rbind].
  unfold bind at 1. rewrite X3. cbn [rbind]. rewrite HG. exact X5.
Qed.

(** ** C16 *)
Lemma free_twice g s o x z p c : reach g s o -> In (x, z) (segs o) -> In (p - 16, c) (free_in (smem s) (x, z)) ->
  forall fuel, step fuel g (OFree p) s = Abort /\ forall h gr, step fuel g (ORealloc h p 0 gr) s = Abort.
Proof.
  intros R HS HF fuel. destruct (reach_good _ _ _ R) as (A & F & G). assert (W := good_world _ _ _ _ _ G).
  assert (HI : In (p - 16, c) (all_free (smem s) o)) by (apply in_flat_map; exists (x, z); auto).
  rewrite (all_free_eq _ _ _ _ _ G) in HI. destruct (frees_zip _ _ _ HI) as (S1 & b & zz & l1 & l2 & S2 & EA & Ew). rewrite EA in W.
  destruct (world_chunk _ _ _ _ _ _ _ _ _ _ _ _ W eq_refl) as (Y1 & Y2 & (Y3 & Y4 & Y5) & Y6 & Y7 & Y8 & Y9 & Y10 & Y11 & _).
  assert (LB : ld (smem s) (p - 1) 1 = 129) by (change (info_of Fr) with 129 in Y5; rewrite <- Y5; f_equal; lia).
  assert (AC : accb (srng s) (p - 1) 1 = true) by (apply (accb_intro _ b zz); [exact Y11|lia|lia]).
  assert (LD : loadn (p - 1) 1 (clear_ev s) = Ok (129, clear_ev s)).
  { unfold loadn. cbn [clear_ev srng smem]. change (Z.of_nat 1) with 1. rewrite AC, LB. reflexivity. }
  assert (X0 : chain_free fuel g p (clear_ev s) = Abort).
  { unfold chain_free. destruct (Z.eqb_spec p 0); [lia|].
    assert (X1 : get_chunk_unpadded p (clear_ev s) = Ok (p - 1, clear_ev s)).
    { assert (M1 : get_magic (p - 1) (clear_ev s) = Ok (16, clear_ev s)) by (unfold get_magic, bind; rewrite LD; reflexivity).
      assert (M2 : get_type (p - 1) (clear_ev s) = Ok (1, clear_ev s)) by (unfold get_type, bind; rewrite LD; reflexivity).
      assert (M3 : get_chunk p (clear_ev s) = Ok (p - 1, clear_ev s)).
      { unfold get_chunk. destruct (Z.eqb_spec p 0); [lia|]. cbv zeta. unfold bind at 1. rewrite M1. cbn [rbind].
        change (negb (16 =? MAGIC)) with false. cbv iota. unfold bind at 1. rewrite M2. reflexivity. }
      unfold get_chunk_unpadded, bind at 1. rewrite M3. cbn [rbind]. unfold unpad_vchunk. destruct (Z.eqb_spec (p - 1) 0); [lia|].
      unfold bind at 1. rewrite M2. reflexivity. }
    unfold bind at 1. rewrite X1. cbn [rbind]. destruct (Z.eqb_spec (p - 1) 0); [lia|].
    unfold bind at 1. unfold get_state at 1. unfold bind at 1. rewrite LD. reflexivity. }
  split; [unfold step; cbn [exec]; unfold bind; rewrite X0; reflexivity|]. intros h gr.
  unfold step; cbn [exec]. unfold chain_realloc. destruct (Z.eqb_spec p 0); [lia|]. cbn [andb Z.eqb]. unfold bind. rewrite X0. reflexivity.
Qed.

(** Right after the free of a plain block, when nothing free was just before it. *)
Lemma free_free g s o p n d fuel r s' : reach g s o -> In (mkBlk p n d) (live o) -> d <= 1 -> step fuel g (OFree p) s = Ok (r, s') ->
  sevs s' = [] -> (csrc g = true -> ~ 1048576 <= snd (occ (smem s) p) <= 1048576 + 16) ->
  (forall v t, In (v, t) (all_free (smem s) o) -> v + t <> p - 16) \/ cmerge g = false ->
  forall fuel2, step fuel2 g (OFree p) s' = Abort.
Proof.
  intros R HL Hd E EV NB NM fuel2. assert (VF : valid g s o (OFree p)) by (right; eauto). assert (R' := reach_step _ _ _ _ _ _ _ R VF E).
  assert (HB : In (mkBlk p n d) (blocks o)) by (apply in_or_app; left; exact HL).
  destruct (blocks_inside _ _ _ R _ HB) as (u & _ & _ & US & _).
  destruct (block_occ _ _ _ R (mkBlk p n d) u HB US) as (w & c & _ & _ & K1 & _ & _ & _ & _ & _ & _ & K8 & _). cbn [bp bd] in *. specialize (K8 Hd).
  destruct (free_fate _ _ _ _ _ _ _ _ _ R HL E) as [(Hc & b & z & _ & _ & K)|[(Hc & _ & K)|(_ & H1 & x & z & w' & t & H2 & H3 & H4 & H5 & H6 & H7)]].
  - congruence.
  - exfalso. exact (NB Hc K).
  - rewrite K1 in H7. cbn [fst] in H7. assert (Ew : w' = w).
    { apply H7. destruct NM as [NM|NM]; [left|right; exact NM]. intros v t' HI. specialize (NM v t' HI). lia. }
    subst w'. apply (free_twice _ _ _ x z p t R' H2). replace (p - 16) with w by lia. exact H3.
Qed.

(** ** C17 *)
Lemma foreign g s p : p <> 0 -> accb (srng s) (p - 1) 1 = true -> ld (smem s) (p - 1) 1 / 8 <> 16 -> forall fuel,
  step fuel g (OFree p) s = (if cstrict g then Abort else Ok (0, clear_ev s)) /\
  forall h n gr, step fuel g (ORealloc h p n gr) s = (if cstrict g then Abort else Ok (0, clear_ev s)).
Proof.
  intros Hp AC MG fuel.
  assert (X1 : get_chunk p (clear_ev s) = Ok (0, clear_ev s)).
  { unfold get_chunk. destruct (Z.eqb_spec p 0); [lia|]. cbv zeta. unfold get_magic, bind, loadn, ret. cbn [clear_ev srng smem].
    change (Z.of_nat 1) with 1. rewrite AC. cbn [rbind]. unfold i_magic, MAGIC. destruct (Z.eqb_spec (ld (smem s) (p - 1) 1 / 8) 16); [contradiction|reflexivity]. }
  assert (X2 : chain_free fuel g p (clear_ev s) = if cstrict g then Abort else Ok (tt, clear_ev s)).
  { unfold chain_free. destruct (Z.eqb_spec p 0); [lia|]. unfold get_chunk_unpadded, bind at 1 2. rewrite X1. cbn [rbind].
    cbn [unpad_vchunk Z.eqb ret rbind]. destruct (cstrict g); reflexivity. }
  split.
  - unfold step. cbn [exec]. unfold bind. rewrite X2. destruct (cstrict g); reflexivity.
  - intros h n gr. unfold step. cbn [exec]. unfold chain_realloc. destruct (Z.eqb_spec p 0); [contradiction|]. cbn [andb].
    destruct (Z.eqb_spec n 0).
    + unfold bind. rewrite X2. destruct (cstrict g); reflexivity.
    + unfold bind at 1. rewrite X1. cbn [rbind Z.eqb]. destruct (cstrict g); reflexivity.
Qed.

(** ** C42 *)
Lemma get_chunk_st p s v s' : get_chunk p s = Ok (v, s') -> s' = s.
Proof.
  unfold get_chunk. destruct (p =? 0); [intros E; injection E; auto|]. cbv zeta. unfold get_magic, get_type, bind, loadn, ret.
  destruct (accb _ _ _) eqn:EA; [|discriminate]. cbn [rbind]. destruct (negb _); [intros E; injection E; auto|].
  rewrite EA. cbn [rbind]. unfold assume. destruct (_ || _); [|discriminate]. cbn. intros E; injection E; auto.
Qed.

Lemma bind_ok {A B} (x : M A) (f : A -> M B) s b s' : bind x f s = Ok (b, s') -> exists a s1, x s = Ok (a, s1) /\ f a s1 = Ok (b, s').
Proof. unfold bind. destruct (x s) as [[a s1]| | |]; try discriminate. cbn. eauto. Qed.
Lemma store_ok a n v s u s' : storen a n v s = Ok (u, s') -> s' = set_mem s (sto (smem s) a n v).
Proof. unfold storen. destruct (accb _ _ _); [|discriminate]. intros E. injection E as _ <-. reflexivity. Qed.

Lemma remote_writes g s o p n d fuel r s' : reach g s o -> In (mkBlk p n d) (live o) -> step fuel g (ORemote p) s = Ok (r, s') ->
  forall x, smem s' x <> smem s x -> p <= x < p + 16 \/ exists b, In b (pend o) /\ bp b <= x < bp b + 8.
Proof.
  intros R HL E x. destruct (reach_good _ _ _ R) as (A & F & G). assert (Q := gd_queue _ _ _ _ _ G). destruct Q as (_ & Q & _).
  unfold step in E. cbn [exec] in E. apply bind_ok in E as (u & s1 & E & E0). injection E0 as _ <-.
  unfold rfq_register in E. destruct (Z.eqb_spec p 0) as [->|Hp].
  { injection E as _ <-. cbn. congruence. }
  apply bind_ok in E as (v & s2 & E1 & E). apply get_chunk_st in E1. subst s2. destruct (v =? 0); [discriminate|].
  apply bind_ok in E as (u2 & s2 & E1 & E). apply store_ok in E1. apply bind_ok in E as (u3 & s3 & E2 & E). apply store_ok in E2.
  unfold queue_insert in E. apply bind_ok in E as (u4 & s4 & E3 & E). apply store_ok in E3.
  apply bind_ok in E as (u5 & s5 & E4 & E). injection E4 as <- <-. cbv zeta in E.
  apply bind_ok in E as (u6 & s6 & E5 & E). injection E5 as _ E5.
  assert (EQ : rqt s4 = last (map bp (pend o)) 0) by (rewrite E3, E2, E1; exact Q). rewrite EQ in E.
  assert (EM : forall y, ~ p <= y < p + 16 -> smem s6 y = smem s y).
  { intros y Hy. rewrite <- E5, E3, E2, E1. cbn [set_rq set_mem clear_ev smem]. rewrite !sto_other; [reflexivity|cbn; lia..]. }
  destruct (Z.eqb_spec (last (map bp (pend o)) 0) 0) as [EL|EL].
  - injection E as _ <-. cbn [set_rq smem]. intros Hx. left. specialize (EM x). lia.
  - apply store_ok in E. rewrite E. cbn [set_mem smem].
    assert (HL2 : exists b, In b (pend o) /\ bp b = last (map bp (pend o)) 0).
    { destruct (pend o) as [|b l _] using rev_ind; [contradiction|]. exists b. rewrite map_app. cbn [map]. rewrite last_last.
      split; [apply in_or_app; right; left; reflexivity|reflexivity]. }
    destruct HL2 as (b & HB & EB). rewrite <- EB. intros Hx.
    assert (D : bp b <= x < bp b + 8 \/ (x < bp b \/ bp b + Z.of_nat 8 <= x)) by (cbn; lia).
    destruct D as [D|D]; [right; exists b; auto|left]. rewrite sto_other in Hx by exact D. specialize (EM x). lia.
Qed.
Lemma remote_room g s o : reach g s o -> forall b, In b (blocks o) -> exists u, usable s (bp b) u /\ 16 <= u.
Proof.
  intros R b HB. destruct (reach_good _ _ _ R) as (A & F & G). destruct (block_info _ _ _ _ _ _ G HB) as (u & x & z & K1 & _ & _ & _ & _ & _ & K7). eauto.
Qed.
