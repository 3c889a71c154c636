(** Walking the segments: the chunks read from memory are those of the invariant. *)
From Verif Require Import Word Res Mem SizeClassModel SizeClassProofs ChainModel Wp ChainInv ChainZip ChainList ChainFl ChainPrim ChainFind ChainSplit ChainMerge ChainOps ChainAlloc ChainFree ChainSpec ChainCore ChainCoreFree ChainStep ChainRealloc ChainQueue ChainRefill ChainFuel ChainTrace ChainProps.
From Coq Require Import ZArith List Bool Lia Permutation.
Import ListNotations.
Open Scope Z_scope.

Fixpoint desc (a : Z) (l : list chunk) : list (Z * Z * bool) :=
  match l with [] => [] | (c, k) :: l' => (a, c, isfr (c, k)) :: desc (a + c) l' end.

Lemma walk_cks m l : forall a pv fuel, cks m a pv l -> (length l < fuel)%nat -> walk fuel m a (a + tot l) = Some (desc a l).
Proof.
  induction l as [|[c k] l IH]; intros a pv fuel H HF; (destruct fuel as [|fuel]; [cbn in HF; lia|]); cbn [walk tot desc].
  - destruct (Z.eqb_spec a (a + 0)); [reflexivity|lia].
  - cbn [cks] in H. destruct H as (H1 & H2 & (H3 & H4 & H5) & H6 & H7). assert (T := cks_tot _ _ _ _ H7).
    destruct (Z.eqb_spec a (a + (c + tot l))); [lia|]. rewrite H3, H5.
    replace (a + (c + tot l)) with (a + c + tot l) by lia. rewrite (IH _ _ fuel H7) by (cbn in HF; lia).
    destruct k; reflexivity.
Qed.

Lemma chunks_desc g s A sg : World g (srng s) (smem s) A -> In sg A -> chunks (smem s) (segr sg) = desc (gbase sg + 32) (gchunks sg).
Proof.
  intros W H. destruct (w_segok _ _ _ _ W _ H) as (H1 & H2 & H3 & H4 & H5 & H6 & H7). unfold chunks, segr. cbn [fst snd].
  assert (L := cks_len _ _ _ _ H6).
  replace (gbase sg + gsize sg - 16) with (gbase sg + 32 + tot (gchunks sg)) by lia.
  rewrite (walk_cks _ _ _ 0); [reflexivity|exact H6|lia].
Qed.

Fixpoint busy_from (a : Z) (l : list chunk) : list (Z * Z) :=
  match l with [] => [] | (c, k) :: l' => match k with Fr => [] | _ => [(a, c)] end ++ busy_from (a + c) l' end.

Lemma desc_free l : forall a, map pos2 (filter is_free (desc a l)) = frees_from a l.
Proof. induction l as [|[c k] l IH]; intros a; cbn [desc filter frees_from]; [reflexivity|]. destruct k; cbn; rewrite IH; reflexivity. Qed.
Lemma desc_busy l : forall a, map pos2 (filter (fun x => negb (is_free x)) (desc a l)) = busy_from a l.
Proof. induction l as [|[c k] l IH]; intros a; cbn [desc filter busy_from]; [reflexivity|]. destruct k; cbn; rewrite IH; reflexivity. Qed.

Lemma free_in_seg g s A sg : World g (srng s) (smem s) A -> In sg A -> free_in (smem s) (segr sg) = frees_from (gbase sg + 32) (gchunks sg).
Proof. intros W H. unfold free_in. rewrite (chunks_desc _ _ _ _ W H). apply desc_free. Qed.
Lemma occ_in_seg g s A sg : World g (srng s) (smem s) A -> In sg A -> occ_in (smem s) (segr sg) = busy_from (gbase sg + 32) (gchunks sg).
Proof. intros W H. unfold occ_in. rewrite (chunks_desc _ _ _ _ W H). apply desc_busy. Qed.

Definition all_free (m : mem) (o : obs) : list (Z * Z) := flat_map (free_in m) (segs o).
Lemma all_free_eq g s o A F : Good g s o A F -> all_free (smem s) o = frees A.
Proof.
  intros G. unfold all_free, frees. rewrite (gd_segs _ _ _ _ _ G). rewrite flat_map_concat_map, map_map, flat_map_concat_map. f_equal.
  apply map_ext_in. intros sg H. apply (free_in_seg g s A); [eapply good_world; exact G|exact H].
Qed.

(** Where a block is, from its pointer. *)
Lemma occ_used m l : forall a pv p n d e, cks m a pv l -> In (p, n, d, e) (used_from a l) ->
  exists w c, occ m p = (w, c) /\ In (w, c) (busy_from a l) /\ e = w + c /\ w + 16 <= p /\ (d <= 1 -> p = w + 16).
Proof.
  induction l as [|[c k] l IH]; intros a pv p n d e H HI; cbn [used_from cks busy_from] in *; [contradiction|].
  destruct H as (H1 & H2 & (H3 & H4 & H5) & H6 & H7). apply in_app_or in HI. destruct HI as [HI|HI].
  - destruct k as [| |p' n' d']; cbn in HI; try contradiction. destruct HI as [E|[]]. injection E as <- <- <- <-.
    cbn [kok] in H6. destruct H6 as (K1 & K2 & K3 & K4 & K5 & K6 & K7). exists a, c.
    assert (OS : occ_start m p' = a).
    { unfold occ_start. destruct K5 as [K5|(K5 & K8 & K9)].
      - replace (p' - 1) with (a + 15) by lia. rewrite H5. cbn. lia.
      - rewrite K9, K8. cbn [info_of] in *. change (134 mod 4 =? 2) with true. cbv iota. lia. }
    unfold occ. rewrite OS, H3. split; [reflexivity|]. split; [left; reflexivity|]. split; [lia|]. split; [exact K1|]. exact K6.
  - destruct (IH _ _ _ _ _ _ H7 HI) as (w & c' & J1 & J2 & J3). exists w, c'. split; [exact J1|]. split; [|exact J3].
    apply in_or_app. right. exact J2.
Qed.

(** Occupied pieces of a segment: its blocks, and the pieces that nobody owns. *)
Lemma busy_perm m l : forall a pv, cks m a pv l -> exists lk,
  Permutation (busy_from a l) (map (fun u => occ m (eptr u)) (used_from a l) ++ lk) /\
  forall w c, In (w, c) lk -> In (c, Lk) l.
Proof.
  induction l as [|[c k] l IH]; intros a pv H; cbn [used_from cks busy_from] in *.
  - exists []. split; [constructor|intros w c []].
  - assert (H0 := H). destruct H as (H1 & H2 & H3 & H6 & H7). destruct (IH _ _ H7) as (lk & P & L).
    destruct k as [| |p n d]; cbn [app].
    + exists lk. split; [exact P|]. intros w c0 HI. right. eauto.
    + exists ((a, c) :: lk). split; [apply Permutation_cons_app; exact P|]. intros w c0 [E|HI]; [injection E as <- <-; left; reflexivity|right; eauto].
    + exists lk. split; [|intros w c0 HI; right; eauto]. cbn [map app].
      destruct (occ_used m [(c, Us p n d)] a pv p n d (a + c)) as (w & c' & J1 & J2 & _).
      { cbn [cks]. tauto. } { left. reflexivity. }
      cbn in J2. destruct J2 as [E|[]]. change (eptr (p, n, d, a + c)) with p. rewrite J1, <- E. constructor. exact P.
Qed.

Lemma total_app l1 l2 : total (l1 ++ l2) = total l1 + total l2.
Proof. induction l1 as [|x l1 IH]; [reflexivity|]. unfold total in *. cbn [app map fold_right]. lia. Qed.
Lemma total_perm l l' : Permutation l l' -> total l = total l'.
Proof. induction 1; unfold total in *; cbn [map fold_right] in *; lia. Qed.
Lemma tot_split l : forall a, tot l = total (frees_from a l) + total (busy_from a l).
Proof.
  induction l as [|[c k] l IH]; intros a; cbn [tot frees_from busy_from]; [reflexivity|]. rewrite !total_app, (IH (a + c)).
  destruct k; unfold total; cbn; lia.
Qed.

(** The blocks of one segment. *)
Lemma filter_none {T} (f : T -> bool) l : (forall x, In x l -> f x = false) -> filter f l = [].
Proof. induction l as [|x l IH]; intros H; [reflexivity|]. cbn. rewrite (H x (or_introl eq_refl)). apply IH. intros y Hy. apply H. right. exact Hy. Qed.
Lemma filter_all {T} (f : T -> bool) l : (forall x, In x l -> f x = true) -> filter f l = l.
Proof. induction l as [|x l IH]; intros H; [reflexivity|]. cbn. rewrite (H x (or_introl eq_refl)). f_equal. apply IH. intros y Hy. apply H. right. exact Hy. Qed.

Lemma seg_used_inside g r m A sg u : World g r m A -> In sg A -> In u (used_from (gbase sg + 32) (gchunks sg)) ->
  inside (segr sg) (strip u) = true.
Proof.
  intros W H HU. destruct (w_segok _ _ _ _ W _ H) as (H1 & H2 & H3 & H4 & H5 & H6 & H7). destruct u as (((p & n) & d) & e).
  assert (R := used_from_range _ _ _ _ _ _ _ _ H6 HU). unfold inside, segr, strip, eptr. cbn [fst snd bp]. lia.
Qed.
Lemma seg_used_outside g r m A sg sg' u : World g r m A -> In sg A -> In sg' A -> disj2 (segr sg) (segr sg') ->
  In u (used_from (gbase sg' + 32) (gchunks sg')) -> inside (segr sg) (strip u) = false.
Proof.
  intros W H H' D HU. assert (K := seg_used_inside _ _ _ _ _ _ W H' HU).
  unfold inside, segr, disj2 in *. cbn [fst snd] in *. lia.
Qed.
Lemma blocks_seg g s o A F sg : Good g s o A F -> In sg A ->
  Permutation (map strip (used_from (gbase sg + 32) (gchunks sg))) (filter (inside (segr sg)) (blocks o)).
Proof.
  intros G H. assert (W := good_world _ _ _ _ _ G).
  eapply Permutation_trans; [|apply perm_filter; exact (co_live _ _ _ _ _ (gd_core _ _ _ _ _ G))].
  destruct (in_split _ _ H) as (S1 & S2 & EA).
  assert (D := wd_disj _ _ _ _ W). rewrite (wd_rng _ _ _ _ W), EA, map_app in D. cbn [map] in D. rewrite <- app_assoc in D. cbn [app] in D.
  apply FOP_app in D as (D1 & D2 & D3). inversion D2 as [|? ? D4 D5]; subst. rewrite Forall_forall in D4.
  unfold used. rewrite flat_map_app. cbn [flat_map]. rewrite !map_app, !filter_app.
  rewrite (filter_none (inside (segr sg)) (map strip (flat_map _ S1))), (filter_none (inside (segr sg)) (map strip (flat_map _ S2))),
    (filter_all (inside (segr sg)) (map strip (used_from _ _))).
  - rewrite app_nil_r. apply Permutation_refl.
  - intros b Hb. apply in_map_iff in Hb as (u & <- & Hu). eapply seg_used_inside; eauto.
  - intros b Hb. apply in_map_iff in Hb as (u & <- & Hu). apply in_flat_map in Hu as (sg' & K1 & K2).
    assert (In sg' (S1 ++ sg :: S2)) by (apply in_or_app; right; right; exact K1).
    eapply seg_used_outside; eauto. apply D4. apply in_or_app. left. apply in_map. exact K1.
  - intros b Hb. apply in_map_iff in Hb as (u & <- & Hu). apply in_flat_map in Hu as (sg' & K1 & K2).
    assert (In sg' (S1 ++ sg :: S2)) by (apply in_or_app; left; exact K1).
    eapply seg_used_outside; eauto. assert (K := D3 (segr sg') (segr sg) (in_map _ _ _ K1) (or_introl eq_refl)). unfold disj2 in *. tauto.
Qed.

(** ** C08 *)
Lemma conserved_gen g s o A F : Good g s o A F -> forall r, In r (segs o) -> exists lk,
  Permutation (occ_in (smem s) r) (map (fun b => occ (smem s) (bp b)) (filter (inside r) (blocks o)) ++ lk) /\
  (forall w c, In (w, c) lk -> csrc g = true /\ 1048576 <= c <= 1048576 + 16) /\
  48 + total (occ_in (smem s) r) + total (free_in (smem s) r) = snd r.
Proof.
  intros G r Hr. assert (W := good_world _ _ _ _ _ G). rewrite (gd_segs _ _ _ _ _ G) in Hr. apply in_map_iff in Hr as (sg & <- & HS).
  destruct (w_segok _ _ _ _ W _ HS) as (H1 & H2 & H3 & H4 & H5 & H6 & H7).
  rewrite (occ_in_seg _ _ _ _ W HS), (free_in_seg _ _ _ _ W HS).
  destruct (busy_perm _ _ _ _ H6) as (lk & P & L). exists lk. split; [|split].
  - eapply Permutation_trans; [exact P|]. apply Permutation_app_tail.
    eapply Permutation_trans; [|apply Permutation_map; apply (blocks_seg _ _ _ _ _ _ G HS)]. rewrite map_map. apply Permutation_refl.
  - intros w c HI. specialize (L _ _ HI). exact (co_lk _ _ _ _ _ (gd_core _ _ _ _ _ G) _ _ HS L).
  - unfold segr. cbn [snd]. rewrite (tot_split _ (gbase sg + 32)) in H3. lia.
Qed.

Lemma conserved g s o : reach g s o -> csrc g = false -> forall r, In r (segs o) ->
  Permutation (occ_in (smem s) r) (map (fun b => occ (smem s) (bp b)) (filter (inside r) (blocks o))) /\
  48 + total (map (fun b => occ (smem s) (bp b)) (filter (inside r) (blocks o))) + total (free_in (smem s) r) = snd r.
Proof.
  intros R Hc r Hr. destruct (reach_good _ _ _ R) as (A & F & G). destruct (conserved_gen _ _ _ _ _ G r Hr) as (lk & P & L & T).
  destruct lk as [|[w c] lk].
  - rewrite app_nil_r in P. split; [exact P|]. rewrite <- (total_perm _ _ P). exact T.
  - destruct (L w c (or_introl eq_refl)). congruence.
Qed.

Lemma desc_ok m l : forall a pv w c f, cks m a pv l -> In (w, c, f) (desc a l) -> 32 <= c /\ c mod 16 = 0.
Proof.
  induction l as [|[c k] l IH]; intros a pv w c' f H HI; [contradiction|].
  cbn [cks desc] in *. destruct H as (K1 & K2 & _ & _ & K3). destruct HI as [E|HI]; [injection E as <- <- <-; auto|eauto].
Qed.
(** The pieces of a segment follow each other without hole nor overlap: the walk reaches the end mark exactly. *)
Lemma walk_ok g s o : reach g s o -> forall r, In r (segs o) ->
  walk (Z.to_nat (snd r)) (smem s) (fst r + 32) (fst r + snd r - 16) = Some (chunks (smem s) r) /\
  forall w c f, In (w, c, f) (chunks (smem s) r) -> 32 <= c /\ c mod 16 = 0.
Proof.
  intros R r Hr. destruct (reach_good _ _ _ R) as (A & F & G). assert (W := good_world _ _ _ _ _ G).
  rewrite (gd_segs _ _ _ _ _ G) in Hr. apply in_map_iff in Hr as (sg & <- & HS).
  destruct (w_segok _ _ _ _ W _ HS) as (H1 & H2 & H3 & H4 & H5 & H6 & H7).
  rewrite (chunks_desc _ _ _ _ W HS). unfold segr. cbn [fst snd]. assert (L := cks_len _ _ _ _ H6). split.
  - replace (gbase sg + gsize sg - 16) with (gbase sg + 32 + tot (gchunks sg)) by lia. apply (walk_cks _ _ _ 0); [exact H6|lia].
  - intros w c f. eapply desc_ok; exact H6.
Qed.

(** ** C12 *)
Lemma block_occ g s o : reach g s o -> forall b u, In b (blocks o) -> usable s (bp b) u ->
  exists w c x z, occ (smem s) (bp b) = (w, c) /\ In (x, z) (segs o) /\ In (w, c) (occ_in (smem s) (x, z)) /\
    x + 32 <= w /\ w + 16 <= bp b /\ bp b + u = w + c /\ w + c <= x + z - 16 /\ (bd b <= 1 -> bp b = w + 16) /\
    get_chunk_unpadded (bp b) s = Ok (w + 15, s).
Proof.
  intros R b u H U. destruct (reach_good _ _ _ R) as (A & F & G). assert (W := good_world _ _ _ _ _ G).
  destruct (blocks_used _ _ _ _ _ _ G H) as (e & HU). assert (EU := usable_eq _ _ _ _ U (usable_ok _ _ _ _ _ _ _ _ _ G HU)).
  destruct (used_zip _ _ _ _ _ HU) as (S1 & x & z & l1 & c & l2 & S2 & EA & Ee). subst A.
  assert (HS : In (mkSeg x z (l1 ++ (c, Us (bp b) (bn b) (bd b)) :: l2)) (S1 ++ mkSeg x z (l1 ++ (c, Us (bp b) (bn b) (bd b)) :: l2) :: S2)) by (apply in_or_app; right; left; reflexivity).
  assert (HC := world_chunk _ _ _ _ _ _ _ _ _ _ _ _ W eq_refl).
  destruct HC as (H1 & H2 & (H3 & H4 & H5) & HK & J1 & J2 & _). assert (HK' := HK). destruct HK as (K1 & K2 & K3 & K4 & K5 & K6 & _).
  destruct (occ_used (smem s) [(c, Us (bp b) (bn b) (bd b))] (x + 32 + tot l1) (lastsz 0 l1) (bp b) (bn b) (bd b) e) as (w & c' & Q1 & Q2 & Q3 & Q4 & Q5).
  { cbn [cks]. split; [exact H1|]. split; [exact H2|]. split; [split; [exact H3|split; assumption]|]. split; [exact HK'|exact I]. }
  { left. rewrite Ee. reflexivity. }
  cbn in Q2. destruct Q2 as [E|[]]. injection E as <- <-.
  exists (x + 32 + tot l1), c, x, z. split; [exact Q1|].
  split; [rewrite (gd_segs _ _ _ _ _ G), map_app; apply in_or_app; right; left; reflexivity|].
  split. { assert (OI := occ_in_seg _ _ _ _ W HS). unfold segr in OI. cbn [gbase gsize gchunks] in OI. rewrite OI.
           clear. revert x. induction l1 as [|[c0 k0] l1 IH]; intros x; cbn [app tot busy_from].
           - replace (x + 32 + 0) with (x + 32) by lia. left. reflexivity.
           - apply in_or_app. right. replace (x + 32 + (c0 + tot l1)) with ((x + c0) + 32 + tot l1) by lia.
             replace (x + 32 + c0) with (x + c0 + 32) by lia. apply IH. }
  split; [exact J1|]. split; [exact Q4|]. split; [lia|]. split; [lia|]. split; [exact Q5|].
  assert (GC : wp (get_chunk_unpadded (bp b)) s (fun v s' => v = x + 32 + tot l1 + 15 /\ s' = s)) by (eapply live_chunk_unpadded; [exact W|reflexivity|auto]).
  unfold wp in GC. destruct (get_chunk_unpadded (bp b) s) as [[v s1]| | |]; try contradiction. destruct GC as (-> & ->). reflexivity.
Qed.
