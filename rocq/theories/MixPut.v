(** Frees of a chain that lives on buffers of the user and has a memory source: what goes to the source. *)
From Verif Require Import Word Res Mem SizeClassModel SizeClassProofs ChainModel Wp ChainInv ChainZip ChainList ChainFl ChainPrim ChainFind ChainSplit ChainMerge ChainOps ChainAlloc ChainFree ChainSpec ChainCore ChainCoreFree ChainStep ChainRealloc ChainQueue ChainRefill ChainFuel ChainTrace ChainWalk ChainLists MixSpec MixProofs.
From Coq Require Import ZArith List Bool Lia Permutation.
Import ListNotations.
Open Scope Z_scope.

Lemma bind_ok {X Y} (x : M X) (f : X -> M Y) s (Q : X -> st -> Prop) :
  wp x s Q -> exists a s', Q a s' /\ bind x f s = f a s'.
Proof. unfold wp, bind. destruct (x s) as [[a s']| | |]; cbn; try contradiction. eauto. Qed.
Lemma bind_ok_at {X Y} (x : M X) (f : X -> M Y) s a s' : wp x s (fun v s1 => v = a /\ s1 = s') -> bind x f s = f a s'.
Proof. intros H. destruct (bind_ok x f s _ H) as (v & s1 & (-> & ->) & E). exact E. Qed.

(** The chunk of a block, found from its pointer. *)
Lemma zip_occ g s S1 b z l1 c p n d l2 S2 : World g (srng s) (smem s) (S1 ++ mkSeg b z (l1 ++ (c, Us p n d) :: l2) :: S2) ->
  occ (smem s) p = (b + 32 + tot l1, c).
Proof.
  intros W. set (a := b + 32 + tot l1).
  assert (SG : segok g (smem s) (mkSeg b z (l1 ++ (c, Us p n d) :: l2))).
  { eapply w_segok; [exact W|]. apply in_or_app. right. left. reflexivity. }
  destruct SG as (_ & _ & _ & _ & _ & Q6 & _). cbn [gsize gchunks gbase] in Q6. apply cks_app in Q6 as (_ & Q7). fold a in Q7.
  cbn [cks] in Q7. destruct Q7 as (J1 & J2 & J3 & J4 & _).
  destruct (occ_used (smem s) [(c, Us p n d)] a _ p n d (a + c) ltac:(cbn [cks]; split; [exact J1|split; [exact J2|split; [exact J3|split; [exact J4|exact I]]]]) ltac:(left; reflexivity)) as (w & c' & E & HI & _).
  rewrite E. cbn [busy_from app] in HI. destruct HI as [HI|[]]. symmetry. exact HI.
Qed.

(** The freed chunk after the merge, and what follows. *)
Definition tail_free (g : cfg) (v t : Z) : M unit :=
  if csrc g && (t mod MACRO_BLOC =? MACRO_BLOC - SZ_MACRO - SZ_LARGE) then free_macro_bloc g v else free_list_insert g (large_of v) AtEnd.
Lemma free_to fuel g s B F S1 b z l1 c p n d l2 S2 :
  let A := S1 ++ mkSeg b z (l1 ++ (c, Us p n d) :: l2) :: S2 in
  Core g s B A F -> csrc g = false -> bytes A < Z.of_nat fuel -> c + 16 <= HUGE_LIMIT ->
  exists l1' fl fr l2' F1 s1, l1 = l1' ++ fl /\ l2 = fr ++ l2' /\
    Inv g s1 (S1 ++ mkSeg b z (l1' ++ (tot fl + c + tot fr, Lk) :: l2') :: S2) F1 /\ memonly s s1 /\
    0 <= tot fl /\ 0 <= tot fr /\
    chain_free fuel g p s = tail_free g (b + 32 + tot l1' + 15) (tot fl + c + tot fr) s1 /\
    chain_free fuel (with_source g) p s = tail_free (with_source g) (b + 32 + tot l1' + 15) (tot fl + c + tot fr) s1.
Proof.
  intros A C Hc Hf Hh. subst A. assert (IV := co_inv _ _ _ _ _ C).
  assert (LEN := chain_len _ _ _ _ _ _ _ _ IV). rewrite app_length in LEN. cbn [length] in LEN.
  assert (W0 := iv_w _ _ _ _ IV). assert (IV1 := inv_us_lk _ _ _ _ _ _ _ _ _ _ _ _ _ IV).
  set (a := b + 32 + tot l1). assert (Ea : a = b + 32 + tot l1) by reflexivity.
  assert (HC := world_chunk _ _ _ _ _ _ _ _ _ _ _ _ W0 Ea).
  destruct HC as (H1 & H2 & (H3 & H4 & H5) & (K1 & K2 & K3 & K4 & K5 & _) & H7 & H8 & H9 & H10 & H11 & _ & _ & _ & _ & HT1).
  assert (BASE : wp (if negb (sbase s =? 0) then bind (get_chunk (sbase s + SZ_LARGE)) (fun _ => ret tt) else ret tt) s (fun v s' => v = tt /\ s' = s)).
  { destruct (Z.eqb_spec (sbase s) 0) as [E|E]; cbn [negb]; [apply wp_ret; auto|].
    destruct (iv_base _ _ _ _ IV) as [K|(sg & KS & KB)]; [contradiction|].
    assert (KO := w_segok _ _ _ _ W0 _ KS). assert (KR := w_in_rng _ _ _ _ W0 _ KS).
    destruct KO as (J1 & J2 & J3 & (J4 & J5 & J6) & J7 & J8 & J9). assert (T := cks_tot _ _ _ _ J8).
    apply wp_bind. apply (wp_get_chunk s (sbase s + SZ_LARGE) 133); auto; unfold SZ_LARGE.
    - lia.
    - eapply accb_intro; [exact KR|lia|lia].
    - rewrite <- KB. replace (gbase sg + 16 - 1) with (gbase sg + 15) by lia. exact J6.
    - apply wp_ret. auto. }
  assert (MG : wp (if cmerge g then merge_chunk fuel g (a + 15) else ret (a + 15)) s (fun v s' =>
      exists l1' fl fr l2' F', l1 = l1' ++ fl /\ l2 = fr ++ l2' /\ v = b + 32 + tot l1' + 15 /\
      Inv g s' (S1 ++ mkSeg b z (l1' ++ (tot fl + c + tot fr, Lk) :: l2') :: S2) F' /\ memonly s s')).
  { destruct (cmerge g) eqn:Ecm.
    - eapply wp_mono; [eapply (merge_spec g s F S1 b z l1 c l2 S2 a fuel); [exact IV1|exact Ea|lia|lia]|].
      intros v s' (l1' & fl & fr & l2' & F' & Q1 & Q2 & Q3 & Q4 & Q5 & Q6 & Q7 & Q8 & Q9 & Q10).
      exists l1', fl, fr, l2', F'. auto.
    - apply wp_ret. exists l1, [], [], l2, F. rewrite app_nil_r. cbn [tot]. replace (0 + c + 0) with c by lia.
      split; [reflexivity|]. split; [reflexivity|]. split; [lia|]. split; [exact IV1|apply memonly_refl]. }
  destruct (wp_run _ _ _ MG) as (v & s1 & EM & l1' & fl & fr & l2' & F1 & E1 & E2 & -> & IV2 & MO).
  exists l1', fl, fr, l2', F1, s1. split; [exact E1|]. split; [exact E2|]. split; [exact IV2|]. split; [exact MO|].
  assert (SG : segok g (smem s) (mkSeg b z (l1 ++ (c, Us p n d) :: l2))).
  { eapply w_segok; [exact W0|]. apply in_or_app. right. left. reflexivity. }
  destruct SG as (_ & _ & _ & _ & _ & Q6 & _). cbn [gsize gchunks gbase] in Q6. apply cks_app in Q6 as (Q6 & Q7). cbn [cks] in Q7. destruct Q7 as (_ & _ & _ & _ & Q7).
  rewrite E1 in Q6. apply cks_app in Q6 as (_ & Q6). rewrite E2 in Q7. apply cks_app in Q7 as (Q7 & _). apply cks_tot in Q6. apply cks_tot in Q7.
  split; [exact Q6|]. split; [exact Q7|].
  assert (W1 := iv_w _ _ _ _ IV2).
  assert (VS : wp (vsize (b + 32 + tot l1' + 15)) s1 (fun v s' => v = tot fl + c + tot fr /\ s' = s1)) by (eapply wp_vsize; [exact W1|reflexivity|auto]).
  assert (GEN : forall g', cmerge g' = cmerge g -> (forall v s, merge_chunk fuel g' v s = merge_chunk fuel g v s) ->
     chain_free fuel g' p s = tail_free g' (b + 32 + tot l1' + 15) (tot fl + c + tot fr) s1).
  { intros g' Em Eq. unfold chain_free. destruct (Z.eqb_spec p 0); [lia|].
    rewrite (bind_ok_at _ _ s (a + 15) s) by (eapply live_chunk_unpadded; [exact W0|exact Ea|auto]).
    destruct (Z.eqb_spec (a + 15) 0); [lia|].
    rewrite (bind_ok_at _ _ s S_ALLOC s) by (eapply wp_get_state; [eapply accb_intro; [exact H11|lia|lia]|exact H5|split; reflexivity]).
    rewrite (bind_ok_at _ _ s tt s) by (apply wp_assume; [reflexivity|auto]).
    rewrite (bind_ok_at _ _ s c s) by (eapply wp_vsize; [exact W0|exact Ea|auto]).
    assert (EH : is_huge g' c = false).
    { unfold is_huge. rewrite calc_small by (assert (BW := W64_val); assert (BS := S63_val); lia). apply andb_false_intro2. unfold HUGE_LIMIT in *. lia. }
    rewrite EH. rewrite (bind_ok_at _ _ s s s) by (apply wp_getst; auto).
    rewrite (bind_ok_at _ _ s tt s BASE). rewrite Em.
    rewrite (bind_ok_at _ _ s (b + 32 + tot l1' + 15) s1).
    2:{ destruct (cmerge g); [unfold wp; rewrite Eq, EM; auto|unfold wp; rewrite EM; auto]. }
    rewrite (bind_ok_at _ _ s1 _ s1 VS). reflexivity. }
  split; [apply GEN; reflexivity|]. apply GEN; [reflexivity|]. intros v s2. apply ws_merge.
Qed.

(** No other range starts inside a segment. *)
Lemma rng_inside g s A sg x z : World g (srng s) (smem s) A -> In sg A -> In (x, z) (srng s) -> gbase sg <= x < gbase sg + gsize sg -> 0 < z ->
  (x, z) = segr sg.
Proof.
  intros W H1 H2 HX Hz. assert (D := wd_disj _ _ _ _ W). assert (H3 := w_in_rng _ _ _ _ W _ H1). change (gbase sg, gsize sg) with (segr sg) in H3.
  destruct (ForallOrdPairs_In D _ _ H2 H3) as [K|[K|K]]; [exact K| |]; unfold disj2, segr in K; cbn [fst snd] in K; lia.
Qed.
Lemma rng_pos g s A x z : World g (srng s) (smem s) A -> In (x, z) (srng s) -> 0 < z.
Proof.
  intros W H. rewrite (wd_rng _ _ _ _ W) in H. apply in_app_or in H as [H|[H|[]]].
  - apply in_map_iff in H as (sg & E & H). injection E as <- <-. destruct (w_segok _ _ _ _ W _ H) as (K1 & K2 & K3 & _ & _ & K6 & _).
    assert (T := cks_tot _ _ _ _ K6). lia.
  - injection H as <- <-. reflexivity.
Qed.

Lemma tail_src g s1 F1 S1 b z l1 t l2 S2 : Inv g s1 (S1 ++ mkSeg b z (l1 ++ (t, Lk) :: l2) :: S2) F1 -> t mod MACRO_BLOC = MACRO_BLOC - 48 ->
  tail_free (with_source g) (b + 32 + tot l1 + 15) t s1 =
  match l1 with [] => Ok (tt, shrunk s1 b) | _ => UB end.
Proof.
  intros IV Et. assert (W := iv_w _ _ _ _ IV).
  assert (HS : In (mkSeg b z (l1 ++ (t, Lk) :: l2)) (S1 ++ mkSeg b z (l1 ++ (t, Lk) :: l2) :: S2)) by (apply in_or_app; right; left; reflexivity).
  assert (HC := world_chunk _ _ _ _ _ _ _ _ _ _ _ _ W eq_refl).
  destruct HC as (H1 & H2 & (H3 & H4 & H5) & _ & H7 & H8 & H9 & H10 & H11 & _).
  unfold tail_free. cbn [csrc with_source andb].
  assert (ET : t mod MACRO_BLOC =? MACRO_BLOC - SZ_MACRO - SZ_LARGE = true) by (rewrite Et; reflexivity). rewrite ET.
  unfold free_macro_bloc. rewrite (bind_ok_at _ _ s1 t s1) by (eapply wp_vsize; [exact W|reflexivity|auto]).
  rewrite ET. cbn [negb].
  rewrite (bind_ok_at _ _ s1 (b + 32 + tot l1) s1).
  2:{ eapply wp_get_ptr_large; [eapply accb_intro; [exact H11|lia|lia]|exact H5|reflexivity|]. split; [lia|reflexivity]. }
  replace (b + 32 + tot l1 - SZ_MACRO) with (b + tot l1) by (unfold SZ_MACRO; lia).
  destruct (w_segok _ _ _ _ W _ HS) as (_ & _ & KT & (K & _) & K' & KC & _). cbn [gbase gsize gchunks] in *.
  apply cks_app in KC as (KC & KD). assert (LL := cks_len _ _ _ _ KC). rewrite tot_app in KT. cbn [tot] in KT. cbn [cks] in KD. destruct KD as (D1 & _ & _ & _ & KD). apply cks_tot in KD.
  destruct l1 as [|ck l1].
  - cbn [tot]. replace (b + 0) with b by lia.
    assert (X : existsb (fun '(x, y) => (x =? b) && (ld (smem s1) b 7 =? y)) (srng s1) && (negb (creg (with_source g)) || (ld (smem s1) (b + 16) 8 =? cpool (with_source g))) = true).
    { cbn [creg cpool with_source]. apply andb_true_intro. split.
      - apply existsb_exists. exists (b, z). split; [exact H11|]. rewrite K. rewrite !Z.eqb_refl. reflexivity.
      - destruct (creg g); [|reflexivity]. rewrite (K' eq_refl). cbn [negb orb]. apply Z.eqb_refl. }
    unfold bind, source_free. rewrite X. reflexivity.
  - set (q := b + tot (ck :: l1)). assert (HQ : b < q < b + z) by (unfold q; cbn [length] in LL; lia).
    assert (X : existsb (fun '(x, y) => (x =? q) && (ld (smem s1) q 7 =? y)) (srng s1) = false).
    { apply Bool.not_true_iff_false. intros X. apply existsb_exists in X as ((x, y) & X1 & X2). apply andb_true_iff in X2 as (X2 & _). apply Z.eqb_eq in X2. subst x.
      assert (E := rng_inside _ _ _ _ _ _ W HS X1 ltac:(cbn [gbase gsize]; lia) (rng_pos _ _ _ _ _ W X1)). injection E as E _. cbn [gbase] in E. lia. }
    unfold bind, source_free. rewrite X. reflexivity.
Qed.

(** The merged chunk is the free chunk around [p] once the block is freed without the source. *)
Lemma seg_map S1 S2 b z l l' : map segr (S1 ++ mkSeg b z l :: S2) = map segr (S1 ++ mkSeg b z l' :: S2).
Proof. rewrite !map_app. reflexivity. Qed.
Lemma all_free_world g s o A : World g (srng s) (smem s) A -> segs o = map segr A -> all_free (smem s) o = frees A.
Proof.
  intros W E. unfold all_free, frees. rewrite E. rewrite flat_map_concat_map, map_map, flat_map_concat_map. f_equal.
  apply map_ext_in. intros sg H. apply (free_in_seg g s A); assumption.
Qed.

Lemma src_free g s o p n d fuel s1 w t : reach g s o -> csrc g = false -> In (mkBlk p n d) (live o) -> held o < Z.of_nat fuel ->
  snd (occ (smem s) p) <= 1048560 -> step fuel g (OFree p) s = Ok (0, s1) -> In (w, t) (all_free (smem s1) o) -> w <= p < w + t ->
  t mod 2097152 = 2097152 - 48 -> exists b z, In (b, z) (segs o) /\ b <= p < b + z /\
    (w = b + 32 -> exists s', step fuel (with_source g) (OFree p) s = Ok (0, s') /\ sevs s' = [EPut b]) /\
    (w <> b + 32 -> step fuel (with_source g) (OFree p) s = UB).
Proof.
  intros R Hc HL Hf Ho E HI Hp Ht. destruct (reach_good _ _ _ R) as (A & F & G). assert (HO := gd_segs _ _ _ _ _ G).
  assert (C := core_clear _ _ _ _ _ (gd_core _ _ _ _ _ G)). rewrite (held_bytes _ _ HO) in Hf.
  assert (HB : In (mkBlk p n d) (live o ++ pend o)) by (apply in_or_app; left; exact HL).
  destruct (core_in _ _ _ _ _ _ _ _ C HB) as (e & HU).
  destruct (used_zip _ _ _ _ _ HU) as (S1 & b & z & l1 & c & l2 & S2 & EA & Ee). subst A.
  assert (W := iv_w _ _ _ _ (co_inv _ _ _ _ _ C)). assert (OC := zip_occ _ _ _ _ _ _ _ _ _ _ _ _ W). cbn [smem clear_ev] in OC. rewrite OC in Ho. cbn [snd] in Ho.
  assert (HC := world_chunk _ _ _ _ _ _ _ _ _ _ _ _ W eq_refl).
  destruct HC as (_ & _ & _ & (K1 & _ & _ & K4 & _) & H7 & H8 & _ & _ & _ & _ & _ & _ & _ & HT1).
  destruct (free_to fuel g (clear_ev s) _ F S1 b z l1 c p n d l2 S2 C Hc Hf ltac:(unfold HUGE_LIMIT; lia)) as (l1' & fl & fr & l2' & F1 & s2 & E1 & E2 & IV2 & MO & P1 & P2 & T1 & T2).
  set (t0 := tot fl + c + tot fr) in *.
  assert (TW : (w, t) = (b + 32 + tot l1', t0)).
  { unfold step in E. cbn [exec] in E. unfold bind in E. rewrite T1 in E. unfold tail_free in E. rewrite Hc in E. cbn [andb] in E.
    assert (IS := insert_spec g s2 F1 S1 b z l1' t0 l2' S2 (b + 32 + tot l1') AtEnd IV2 eq_refl).
    unfold large_of, SZ_LARGE in E. replace (b + 32 + tot l1' + 15 + 1 - 16) with (b + 32 + tot l1') in E by lia.
    destruct (wp_run _ _ _ IS) as (? & s3 & E3 & F2 & IV3 & M3 & _). rewrite E3 in E. cbn [rbind ret] in E. injection E as <-.
    assert (W3 := iv_w _ _ _ _ IV3). rewrite (all_free_world g s3 o _ W3) in HI by (rewrite HO; apply seg_map).
    assert (HF0 := frees_mid_in S1 b z l1' t0 l2' S2).
    assert (L1 : tot l1 = tot l1' + tot fl) by (rewrite E1; apply tot_app).
    destruct (ForallOrdPairs_In (frees_disj _ _ _ _ W3) _ _ HI HF0) as [K|[K|K]]; [exact K| |]; exfalso; unfold disj2, t0 in K; cbn [fst snd] in K; lia. }
  injection TW as -> ->.
  exists b, z. split; [rewrite HO; apply in_map_iff; exists (mkSeg b z (l1 ++ (c, Us p n d) :: l2)); split; [reflexivity|apply in_or_app; right; left; reflexivity]|].
  split; [lia|].
  assert (TS := tail_src g s2 F1 S1 b z l1' t0 l2' S2 IV2 Ht).
  unfold step. cbn [exec]. unfold bind. rewrite T2, TS.
  assert (L0 : tot l1' = 0 <-> l1' = []).
  { assert (SG := w_segok _ _ _ _ (iv_w _ _ _ _ IV2) (mkSeg b z (l1' ++ (t0, Lk) :: l2')) ltac:(apply in_or_app; right; left; reflexivity)).
    destruct SG as (_ & _ & _ & _ & _ & Q6 & _). cbn [gchunks gbase] in Q6. apply cks_app in Q6 as (Q6 & _). apply cks_len in Q6.
    split; [|intros ->; reflexivity]. destruct l1'; [reflexivity|]. cbn [length] in Q6. lia. }
  split.
  - intros Ew. assert (EL : l1' = []) by (apply L0; lia). rewrite EL. eexists. split; [reflexivity|]. cbn [shrunk set_cnt set_ev sevs set_rng]. red in MO. rewrite MO. reflexivity.
  - intros Ew. destruct l1' as [|ck l1']; [exfalso; apply Ew; cbn [tot]; lia|reflexivity].
Qed.

(** Blocks above 1 MB are not freed at all. *)
Lemma src_lost g s o p n d fuel : reach g s o -> csrc g = false -> In (mkBlk p n d) (live o) ->
  1048560 < snd (occ (smem s) p) -> snd (occ (smem s) p) mod 2097152 <> 2097152 - 48 ->
  step fuel (with_source g) (OFree p) s = Ok (0, clear_ev s).
Proof.
  intros R Hc HL Ho Hm. destruct (reach_good _ _ _ R) as (A & F & G).
  assert (C := core_clear _ _ _ _ _ (gd_core _ _ _ _ _ G)).
  assert (HB : In (mkBlk p n d) (live o ++ pend o)) by (apply in_or_app; left; exact HL).
  destruct (core_in _ _ _ _ _ _ _ _ C HB) as (e & HU).
  destruct (used_zip _ _ _ _ _ HU) as (S1 & b & z & l1 & c & l2 & S2 & EA & Ee). subst A.
  assert (W := iv_w _ _ _ _ (co_inv _ _ _ _ _ C)). assert (OC := zip_occ _ _ _ _ _ _ _ _ _ _ _ _ W). cbn [smem clear_ev] in OC. rewrite OC in Ho, Hm. cbn [snd] in Ho, Hm.
  assert (HC := world_chunk _ _ _ _ _ _ _ _ _ _ _ _ W eq_refl).
  destruct HC as (H1 & H2 & (H3 & H4 & H5) & (K1 & K2 & K3 & K4 & K5 & _) & H7 & H8 & H9 & H10 & H11 & _).
  set (s0 := clear_ev s) in *. set (a := b + 32 + tot l1) in *.
  assert (EX : chain_free fuel (with_source g) p s0 = Ok (tt, s0)); [|unfold step; fold s0; cbn [exec]; unfold bind; rewrite EX; reflexivity].
  unfold chain_free. destruct (Z.eqb_spec p 0); [lia|].
  rewrite (bind_ok_at _ _ s0 (a + 15) s0) by (eapply live_chunk_unpadded; [exact W|reflexivity|auto]).
  destruct (Z.eqb_spec (a + 15) 0); [lia|].
  rewrite (bind_ok_at _ _ s0 S_ALLOC s0) by (eapply wp_get_state; [eapply accb_intro; [exact H11|lia|lia]|exact H5|split; reflexivity]).
  rewrite (bind_ok_at _ _ s0 tt s0) by (apply wp_assume; [reflexivity|auto]).
  rewrite (bind_ok_at _ _ s0 c s0) by (eapply wp_vsize; [exact W|reflexivity|auto]).
  assert (EH : is_huge (with_source g) c = true).
  { unfold is_huge. rewrite calc_small by (assert (BW := W64_val); assert (BS := S63_val); lia). cbn [csrc with_source andb]. unfold HUGE_LIMIT. lia. }
  rewrite EH. unfold free_macro_bloc.
  rewrite (bind_ok_at _ _ s0 c s0) by (eapply wp_vsize; [exact W|reflexivity|auto]).
  assert (EM : c mod MACRO_BLOC =? MACRO_BLOC - SZ_MACRO - SZ_LARGE = false) by (apply Z.eqb_neq; exact Hm).
  rewrite EM. reflexivity.
Qed.
