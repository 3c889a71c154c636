(** Replacing some consecutive chunks of a segment. *)
From Verif Require Import Word Res Mem SizeClassModel SizeClassProofs ChainModel Wp ChainInv.
From Coq Require Import ZArith List Bool Lia.
Import ListNotations.
Open Scope Z_scope.

Lemma frees_mid S1 S2 b z l : frees (S1 ++ mkSeg b z l :: S2) = frees S1 ++ frees_from (b + 32) l ++ frees S2.
Proof. unfold frees. rewrite flat_map_app. reflexivity. Qed.
Lemma cells_mid S1 S2 b z l : cells (S1 ++ mkSeg b z l :: S2) = cells S1 ++ cells_from (b + 32) l ++ cells S2.
Proof. unfold cells. rewrite flat_map_app. reflexivity. Qed.
Lemma used_mid S1 S2 b z l : used (S1 ++ mkSeg b z l :: S2) = used S1 ++ used_from (b + 32) l ++ used S2.
Proof. unfold used. rewrite flat_map_app. reflexivity. Qed.

(** Finding the position of a chunk. *)
Lemma frees_from_zip l : forall a w c, In (w, c) (frees_from a l) ->
  exists l1 l2, l = l1 ++ (c, Fr) :: l2 /\ w = a + tot l1.
Proof.
  induction l as [|[c0 k] l IH]; intros a w c H; cbn [frees_from] in H; [contradiction|].
  rewrite in_app_iff in H. destruct H as [H|H].
  - destruct k; cbn in H; try contradiction. destruct H as [E|[]]. injection E as <- <-.
    exists [], l. split; [reflexivity|cbn; lia].
  - apply IH in H as (l1 & l2 & -> & ->). exists ((c0, k) :: l1), l2. split; [reflexivity|cbn [tot]; lia].
Qed.

Lemma frees_zip A w c : In (w, c) (frees A) ->
  exists S1 b z l1 l2 S2, A = S1 ++ mkSeg b z (l1 ++ (c, Fr) :: l2) :: S2 /\ w = b + 32 + tot l1.
Proof.
  unfold frees. rewrite in_flat_map. intros ([b z l] & H1 & H2). cbn [gbase gchunks] in H2.
  apply frees_from_zip in H2 as (l1 & l2 & -> & ->).
  apply in_split in H1 as (S1 & S2 & ->). exists S1, b, z, l1, l2, S2. auto.
Qed.

Lemma used_from_zip l : forall a p n d e, In (p, n, d, e) (used_from a l) ->
  exists l1 c l2, l = l1 ++ (c, Us p n d) :: l2 /\ e = a + tot l1 + c.
Proof.
  induction l as [|[c0 k] l IH]; intros a p n d e H; cbn [used_from] in H; [contradiction|].
  rewrite in_app_iff in H. destruct H as [H|H].
  - destruct k; cbn in H; try contradiction. destruct H as [E|[]]. injection E as <- <- <- <-.
    exists [], c0, l. split; [reflexivity|cbn; lia].
  - apply IH in H as (l1 & c & l2 & -> & ->). exists ((c0, k) :: l1), c, l2. split; [reflexivity|cbn [tot]; lia].
Qed.

Lemma used_zip A p n d e : In (p, n, d, e) (used A) ->
  exists S1 b z l1 c l2 S2, A = S1 ++ mkSeg b z (l1 ++ (c, Us p n d) :: l2) :: S2 /\ e = b + 32 + tot l1 + c.
Proof.
  unfold used. rewrite in_flat_map. intros ([b z l] & H1 & H2). cbn [gbase gchunks] in H2.
  apply used_from_zip in H2 as (l1 & c & l2 & -> & ->).
  apply in_split in H1 as (S1 & S2 & ->). exists S1, b, z, l1, c, l2, S2. auto.
Qed.

Lemma segok_replace g m m' b z l1 mid mid' l2 a :
  segok g m (mkSeg b z (l1 ++ mid ++ l2)) ->
  a = b + 32 + tot l1 -> tot mid' = tot mid ->
  cks m' a (lastsz 0 l1) mid' ->
  chg m m' (fun x => a <= x < a + tot mid \/ a + tot mid + 8 <= x < a + tot mid + 15) ->
  ld m' (a + tot mid + 8) 7 = lastsz (lastsz 0 l1) mid' ->
  segok g m' (mkSeg b z (l1 ++ mid' ++ l2)).
Proof.
  intros (H1 & H2 & H3 & H4 & H5 & H6 & H7) Ea Et HC HG HL.
  unfold segok. cbn [gbase gsize gchunks] in *.
  rewrite !tot_app, !lastsz_app in *.
  rewrite !cks_app in *. destruct H6 as (C1 & C2 & C3).
  assert (T1 := cks_tot _ _ _ _ C1). assert (T2 := cks_tot _ _ _ _ C2). assert (T3 := cks_tot _ _ _ _ C3).
  split; [auto|]. split; [auto|]. split; [lia|].
  split. { apply (hdr_frame _ _ _ _ _ _ _ HG); [|exact H4]. intros x Hx. lia. }
  split. { intros R. rewrite <- (H5 R). apply (chg_ld _ _ _ _ _ HG). intros x Hx. lia. }
  split.
  - split. { apply (cks_frame _ _ _ _ HG); [|exact C1]. intros x Hx. apply (meta_range _ _ _ _ _ C1) in Hx. lia. }
    rewrite Et. rewrite <- Ea in *. split; [exact HC|].
    destruct l2 as [|[c k] l2]; cbn [cks] in *; [exact I|].
    destruct C3 as (K1 & K2 & K3 & K4 & K5). assert (T5 := cks_tot _ _ _ _ K5). cbn [tot] in T3.
    split; [auto|]. split; [auto|]. split.
    { destruct K3 as (E1 & E2 & E3). unfold hdr. split; [|split; [exact HL|]].
      - rewrite (chg_ld _ _ _ _ _ HG); [exact E1|]. intros x Hx. lia.
      - rewrite (chg_ld _ _ _ _ _ HG); [exact E3|]. intros x Hx. lia. }
    split.
    { destruct k as [| |p n d]; cbn [kok] in *; auto. destruct K4 as (Q1 & Q2 & Q3 & Q4 & Q5 & Q8).
      split; [exact Q1|]. split; [exact Q2|]. split; [exact Q3|]. split; [exact Q4|]. split; [|exact Q8]. destruct Q5 as [Q5|(Q5 & Q6 & Q7)]; [left; auto|right].
      rewrite !(chg_ld _ _ _ _ _ HG) by (intros x Hx; lia). auto. }
    apply (cks_frame _ _ _ _ HG); [|exact K5]. intros x Hx. apply (meta_range _ _ _ _ _ K5) in Hx. lia.
  - destruct l2 as [|[c k] l2].
    + cbn [tot lastsz] in *. destruct H7 as (E1 & E2 & E3).
      assert (Ee : b + z - 16 = a + tot mid) by lia. rewrite Ee in *. unfold hdr.
      split; [|split; [exact HL|]].
      * rewrite (chg_ld _ _ _ _ _ HG); [exact E1|]. intros x Hx. lia.
      * rewrite (chg_ld _ _ _ _ _ HG); [exact E3|]. intros x Hx. lia.
    + cbn [tot lastsz] in *. destruct C3 as (K1 & K2 & K3 & K4 & K5). assert (T5 := cks_tot _ _ _ _ K5).
      apply (hdr_frame _ _ _ _ _ _ _ HG); [|exact H7]. intros x Hx. lia.
Qed.

Lemma world_replace g r m m' S1 b z l1 mid mid' l2 S2 a :
  World g r m (S1 ++ mkSeg b z (l1 ++ mid ++ l2) :: S2) ->
  a = b + 32 + tot l1 -> tot mid' = tot mid ->
  cks m' a (lastsz 0 l1) mid' ->
  chg m m' (fun x => a <= x < a + tot mid \/ a + tot mid + 8 <= x < a + tot mid + 15) ->
  ld m' (a + tot mid + 8) 7 = lastsz (lastsz 0 l1) mid' ->
  World g r m' (S1 ++ mkSeg b z (l1 ++ mid' ++ l2) :: S2).
Proof.
  intros W Ea Et HC HG HL.
  assert (HS : segok g m (mkSeg b z (l1 ++ mid ++ l2))).
  { eapply w_segok; [exact W|]. rewrite in_app_iff. right. left. reflexivity. }
  assert (HS' : segok g m' (mkSeg b z (l1 ++ mid' ++ l2))) by (eapply segok_replace; eauto).
  assert (D : forall sg, In sg (S1 ++ S2) -> disj2 (b, z) (gbase sg, gsize sg)).
  { intros sg Hsg. exact (w_two_segs g r m _ W S1 _ S2 sg eq_refl Hsg). }
  assert (B : b + 32 <= a /\ a + tot mid + 16 <= b + z).
  { destruct HS as (H1 & H2 & H3 & H4 & H5 & H6 & H7). cbn [gbase gsize gchunks] in *.
    rewrite !tot_app in H3. rewrite !cks_app in H6. destruct H6 as (C1 & C2 & C3).
    assert (T1 := cks_tot _ _ _ _ C1). assert (T3 := cks_tot _ _ _ _ C3). lia. }
  destruct W as [P1 P2 P3 P4]. constructor; auto.
  - rewrite P2, !map_app. reflexivity.
  - rewrite Forall_app in *. destruct P4 as [P4 P5]. inversion P5 as [|? ? _ P6]; subst.
    assert (FR : forall sg, In sg (S1 ++ S2) -> segok g m sg -> segok g m' sg).
    { intros sg Hsg HO. apply (segok_frame _ _ _ _ _ HG); [|exact HO].
      intros x Hx. apply (segmeta_range _ _ _ _ HO) in Hx. specialize (D sg Hsg).
      unfold disj2 in D. cbn [fst snd] in D. assert (0 <= tot mid) by (destruct HS as (_&_&_&_&_&H6&_); cbn [gchunks] in H6; rewrite !cks_app in H6; destruct H6 as (_ & C2 & _); exact (cks_tot _ _ _ _ C2)). lia. }
    split.
    + rewrite Forall_forall in *. intros sg Hsg. apply FR; [rewrite in_app_iff; auto|auto].
    + constructor; [exact HS'|]. rewrite Forall_forall in *. intros sg Hsg. apply FR; [rewrite in_app_iff; auto|auto].
Qed.

(** Facts about one chunk. *)
Lemma world_chunk g r m S1 b z l1 c k l2 S2 a :
  World g r m (S1 ++ mkSeg b z (l1 ++ (c, k) :: l2) :: S2) -> a = b + 32 + tot l1 ->
  32 <= c /\ c mod 16 = 0 /\ hdr m a c (lastsz 0 l1) (info_of k) /\ kok m a c k /\
  b + 32 <= a /\ a + c + 16 <= b + z /\ 0 < b /\ b + z <= AMAX /\ In (b, z) r /\
  ld m (a + c + 8) 7 = c /\ 0 <= lastsz 0 l1 < AMAX /\ (lastsz 0 l1 = 0 -> l1 = []) /\ (a - b) mod 16 = 0 /\ 0 <= tot l1.
Proof.
  intros W Ea.
  assert (HS : segok g m (mkSeg b z (l1 ++ (c, k) :: l2))).
  { eapply w_segok; [exact W|]. rewrite in_app_iff. right. left. reflexivity. }
  assert (HR : In (b, z) r).
  { apply (w_in_rng _ _ _ _ W (mkSeg b z (l1 ++ (c, k) :: l2))). rewrite in_app_iff. right. left. reflexivity. }
  destruct HS as (H1 & H2 & H3 & H4 & H5 & H6 & H7). cbn [gbase gsize gchunks] in *.
  rewrite !tot_app in H3. rewrite cks_app in H6. destruct H6 as (C1 & C2). cbn [cks tot] in *.
  destruct C2 as (K1 & K2 & K3 & K4 & K5).
  assert (T1 := cks_tot _ _ _ _ C1). assert (T5 := cks_tot _ _ _ _ K5). assert (M1 := cks_tot16 _ _ _ _ C1).
  rewrite <- Ea in *.
  assert (L : 0 <= lastsz 0 l1 < AMAX /\ (lastsz 0 l1 = 0 -> l1 = [])).
  { clear - C1 T1 H2 H3 T5 K1 H1. destruct l1 as [|x l1] using rev_ind; cbn [lastsz].
    - split; [lia|auto].
    - destruct x as [c0 k0]. rewrite lastsz_app. cbn [lastsz]. rewrite tot_app in *. cbn [tot] in *.
      rewrite cks_app in C1. destruct C1 as (C1 & C2). cbn [cks] in C2. assert (T := cks_tot _ _ _ _ C1).
      split; [lia|]. intros; lia. }
  repeat split; try (apply K3); try lia; auto; try (apply L).
  destruct l2 as [|[c' k'] l2].
  - rewrite lastsz_app in H7. cbn [tot lastsz] in *. destruct H7 as (_ & E & _).
    replace (b + z - 16) with (a + c) in E by lia. exact E.
  - cbn [cks] in K5. destruct K5 as (_ & _ & (_ & E & _) & _). exact E.
Qed.

(** Membership of frees/cells after replacing one chunk. *)
Lemma frees_from_range m l : forall a pv w c, cks m a pv l -> In (w, c) (frees_from a l) ->
  a <= w /\ w + c <= a + tot l /\ 32 <= c.
Proof.
  intros a pv w c H HIn. apply frees_cells in HIn. assert (R := cells_range _ _ _ _ _ _ H HIn). lia.
Qed.

(** A free chunk outside [a, a+t) when the chunks there are replaced. *)
Lemma frees_outside g r m S1 b z l1 mid l2 S2 a w c :
  World g r m (S1 ++ mkSeg b z (l1 ++ mid ++ l2) :: S2) -> a = b + 32 + tot l1 -> mid <> [] ->
  In (w, c) (frees S1 ++ frees_from (b + 32) l1 ++ frees_from (a + tot mid) l2 ++ frees S2) ->
  w + c <= a \/ a + tot mid <= w.
Proof.
  intros W Ea Hne HIn.
  set (sg := mkSeg b z (l1 ++ mid ++ l2)) in *.
  assert (HS : segok g m sg).
  { eapply w_segok; [exact W|]. rewrite in_app_iff. right. left. reflexivity. }
  assert (D : forall w c, In (w, c) (frees S1 ++ frees S2) -> w + c <= b \/ b + z <= w).
  { intros w0 c0 Hw. assert (Hw' : exists sg', In sg' (S1 ++ S2) /\ In (w0, c0) (frees_from (gbase sg' + 32) (gchunks sg'))).
    { unfold frees in Hw. rewrite <- flat_map_app, in_flat_map in Hw. exact Hw. }
    destruct Hw' as (sg' & Hs & Hf).
    assert (D := w_two_segs g r m _ W S1 _ S2 sg' eq_refl Hs).
    assert (HS' : segok g m sg').
    { eapply w_segok; [exact W|]. rewrite in_app_iff in *. cbn. tauto. }
    destruct HS' as (H1 & H2 & H3 & H4 & H5 & H6 & H7).
    assert (R := frees_from_range _ _ _ _ _ _ H6 Hf). unfold disj2, sg in D. cbn [fst snd gbase gsize] in D. lia. }
  destruct HS as (H1 & H2 & H3 & H4 & H5 & H6 & H7). subst sg. cbn [gbase gsize gchunks] in *.
  rewrite !tot_app in H3. rewrite !cks_app in H6. destruct H6 as (C1 & C2 & C3).
  assert (T1 := cks_tot _ _ _ _ C1). assert (T2 := cks_tot _ _ _ _ C2). assert (T3 := cks_tot _ _ _ _ C3).
  rewrite !in_app_iff in HIn.
  destruct HIn as [HIn|[HIn|[HIn|HIn]]].
  - specialize (D w c). rewrite in_app_iff in D. specialize (D (or_introl HIn)). lia.
  - assert (R := frees_from_range _ _ _ _ _ _ C1 HIn). lia.
  - rewrite <- Ea in C3. assert (R := frees_from_range _ _ _ _ _ _ C3 HIn). lia.
  - specialize (D w c). rewrite in_app_iff in D. specialize (D (or_intror HIn)). lia.
Qed.

Lemma frees_split S1 b z l1 mid l2 S2 a w c : a = b + 32 + tot l1 ->
  In (w, c) (frees (S1 ++ mkSeg b z (l1 ++ mid ++ l2) :: S2)) <->
  In (w, c) (frees_from a mid) \/
  In (w, c) (frees S1 ++ frees_from (b + 32) l1 ++ frees_from (a + tot mid) l2 ++ frees S2).
Proof.
  intros ->. rewrite frees_mid, !frees_from_app, !in_app_iff. tauto.
Qed.

(** Scratch bytes after replacing chunks without user blocks. *)
Definition nous (l : list chunk) : Prop := Forall (fun ck => match snd ck with Us _ _ _ => False | _ => True end) l.

Lemma nous_liveb l x : forall a, nous l -> ~ liveb a l x.
Proof.
  induction l as [|[c k] l IH]; intros a H HL; cbn [liveb] in HL; [contradiction|].
  inversion H as [|? ? H1 H2]; subst. cbn [snd] in H1. destruct HL as [HL|HL].
  - destruct k; contradiction.
  - exact (IH _ H2 HL).
Qed.

Lemma scratch_replace g S1 b z l1 mid mid' l2 S2 x :
  nous mid -> nous mid' -> tot mid' = tot mid ->
  (scratch g (S1 ++ mkSeg b z (l1 ++ mid ++ l2) :: S2) x <->
   scratch g (S1 ++ mkSeg b z (l1 ++ mid' ++ l2) :: S2) x).
Proof.
  intros N N' Et. unfold scratch.
  assert (E : forall mid mid', nous mid -> nous mid' -> tot mid' = tot mid ->
    (exists sg, In sg (S1 ++ mkSeg b z (l1 ++ mid ++ l2) :: S2) /\ gbase sg <= x < gbase sg + gsize sg /\
      ~ liveb (gbase sg + 32) (gchunks sg) x) ->
    (exists sg, In sg (S1 ++ mkSeg b z (l1 ++ mid' ++ l2) :: S2) /\ gbase sg <= x < gbase sg + gsize sg /\
      ~ liveb (gbase sg + 32) (gchunks sg) x)).
  { clear. intros mid mid' N N' Et (sg & HI & HR & HL).
    rewrite in_app_iff in HI. cbn [In] in HI. destruct HI as [HI|[HI|HI]].
    - exists sg. rewrite in_app_iff. auto.
    - subst sg. cbn [gbase gsize gchunks] in *. exists (mkSeg b z (l1 ++ mid' ++ l2)).
      rewrite in_app_iff. cbn [In gbase gsize gchunks]. split; [auto|]. split; [auto|].
      rewrite !liveb_app in *. intros [K|[K|K]].
      + apply HL. auto.
      + exact (nous_liveb _ _ _ N' K).
      + apply HL. right. right. rewrite Et in K. exact K.
    - exists sg. rewrite in_app_iff. cbn [In]. auto. }
  split; (intros [H|H]; [left; exact H|right]).
  - eapply E; [exact N|exact N'|exact Et|exact H].
  - eapply E; [exact N'|exact N|symmetry; exact Et|exact H].
Qed.

(** Bytes of a replaced stretch are scratch. *)
Lemma stretch_scratch g r m S1 b z l1 mid l2 S2 a x :
  World g r m (S1 ++ mkSeg b z (l1 ++ mid ++ l2) :: S2) -> a = b + 32 + tot l1 ->
  nous mid -> a <= x < a + tot mid \/ a + tot mid <= x < a + tot mid + 16 ->
  scratch g (S1 ++ mkSeg b z (l1 ++ mid ++ l2) :: S2) x.
Proof.
  intros W Ea N Hx. right. exists (mkSeg b z (l1 ++ mid ++ l2)).
  assert (HS : segok g m (mkSeg b z (l1 ++ mid ++ l2))).
  { eapply w_segok; [exact W|]. rewrite in_app_iff. right. left. reflexivity. }
  split; [rewrite in_app_iff; right; left; reflexivity|].
  destruct HS as (H1 & H2 & H3 & H4 & H5 & H6 & H7). cbn [gbase gsize gchunks] in *.
  rewrite !tot_app in H3. rewrite !cks_app in H6. destruct H6 as (C1 & C2 & C3).
  assert (T1 := cks_tot _ _ _ _ C1). assert (T2 := cks_tot _ _ _ _ C2). assert (T3 := cks_tot _ _ _ _ C3).
  rewrite <- Ea in *.
  split; [lia|].
  rewrite !liveb_app. rewrite <- Ea. intros [K|[K|K]].
  - apply (liveb_range _ _ _ _ _ C1) in K. lia.
  - exact (nous_liveb _ _ _ N K).
  - apply (liveb_range _ _ _ _ _ C3) in K. lia.
Qed.
