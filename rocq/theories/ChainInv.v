(** Representation invariant of an allocation chain and structural lemmas. *)
From Verif Require Import Word Res Mem SizeClassModel SizeClassProofs ChainModel Wp.
From Coq Require Import ZArith List Bool Lia.
Import ListNotations.
Open Scope Z_scope.

Notation AMAX := 72057594037927936. (* 2^56 *)

(** ** Abstract state *)

(** A chunk is free (in a free list), used by the program ([p] pointer given, [n] bytes asked, alignment [d] asked), or neither
    (allocated state without user pointer). *)
Inductive kind := Fr | Lk | Us (p n d : Z).
Definition chunk : Type := Z * kind.
Record seg := mkSeg { gbase : Z; gsize : Z; gchunks : list chunk }.
Definition segr (sg : seg) : Z * Z := (gbase sg, gsize sg).

Fixpoint tot (l : list chunk) : Z := match l with [] => 0 | (c, _) :: l' => c + tot l' end.
Fixpoint lastsz (pv : Z) (l : list chunk) : Z := match l with [] => pv | (c, _) :: l' => lastsz c l' end.

Definition info_of (k : kind) : Z := match k with Fr => 129 | _ => 133 end.

Definition hdr (m : mem) (a sz pv inf : Z) : Prop :=
  ld m a 7 = sz /\ ld m (a + 8) 7 = pv /\ ld m (a + 15) 1 = inf.

(** Alignment of the user pointer. *)
Definition alok (a p d : Z) : Prop := (d <= 1 -> p = a + 16) /\ (1 < d -> p mod d = 0).
(** The user pointer of a used chunk and, when it is not the chunk body, its padded header. *)
Definition kok (m : mem) (a c : Z) (k : kind) : Prop :=
  match k with
  | Us p n d =>
      a + 16 <= p /\ 1 <= n /\ p + n <= a + c /\ p + 16 <= a + c /\
      (p = a + 16 \/ (a + 24 <= p /\ ld m (p - 8) 7 = p - 8 - (a + 16) /\ ld m (p - 1) 1 = 134)) /\
      alok a p d
  | _ => True
  end.

Fixpoint cks (m : mem) (a pv : Z) (l : list chunk) : Prop :=
  match l with
  | [] => True
  | (c, k) :: l' =>
      32 <= c /\ c mod 16 = 0 /\ hdr m a c pv (info_of k) /\ kok m a c k /\ cks m (a + c) c l'
  end.

Definition segok (g : cfg) (m : mem) (sg : seg) : Prop :=
  0 < gbase sg /\ gbase sg + gsize sg <= AMAX /\ gsize sg = 48 + tot (gchunks sg) /\
  hdr m (gbase sg) (gsize sg) 0 133 /\
  (creg g = true -> ld m (gbase sg + 16) 8 = cpool g) /\
  cks m (gbase sg + 32) 0 (gchunks sg) /\
  hdr m (gbase sg + gsize sg - 16) 0 (lastsz 0 (gchunks sg)) 133.

(** Free chunks, and chunks that do not belong to the program. *)
Fixpoint frees_from (a : Z) (l : list chunk) : list (Z * Z) :=
  match l with
  | [] => []
  | (c, k) :: l' => match k with Fr => [(a, c)] | _ => [] end ++ frees_from (a + c) l'
  end.
Fixpoint cells_from (a : Z) (l : list chunk) : list (Z * Z) :=
  match l with
  | [] => []
  | (c, k) :: l' => match k with Us _ _ _ => [] | _ => [(a, c)] end ++ cells_from (a + c) l'
  end.
(** Blocks of the program: pointer, size and alignment asked, end of the chunk. *)
Fixpoint used_from (a : Z) (l : list chunk) : list (Z * Z * Z * Z) :=
  match l with
  | [] => []
  | (c, k) :: l' => match k with Us p n d => [(p, n, d, a + c)] | _ => [] end ++ used_from (a + c) l'
  end.
Definition frees (A : list seg) := flat_map (fun sg => frees_from (gbase sg + 32) (gchunks sg)) A.
Definition cells (A : list seg) := flat_map (fun sg => cells_from (gbase sg + 32) (gchunks sg)) A.
Definition used (A : list seg) := flat_map (fun sg => used_from (gbase sg + 32) (gchunks sg)) A.

(** Bytes read by [cks], and bytes of the program. *)
Fixpoint meta (a : Z) (l : list chunk) (x : Z) : Prop :=
  match l with
  | [] => False
  | (c, k) :: l' =>
      a <= x < a + 16 \/ (match k with Us p _ _ => p - 8 <= x < p | _ => False end) \/ meta (a + c) l' x
  end.
Fixpoint liveb (a : Z) (l : list chunk) (x : Z) : Prop :=
  match l with
  | [] => False
  | (c, k) :: l' => (match k with Us p _ _ => p <= x < a + c | _ => False end) \/ liveb (a + c) l' x
  end.

(** Bytes that operations may change. *)
Definition scratch (g : cfg) (A : list seg) (x : Z) : Prop :=
  cpool g <= x < cpool g + POOL_SIZE \/
  exists sg, In sg A /\ gbase sg <= x < gbase sg + gsize sg /\ ~ liveb (gbase sg + 32) (gchunks sg) x.

(** ** Free lists *)
Definition nxt (m : mem) (a : Z) : Z := ld m (a + 16) 8.
Definition prv (m : mem) (a : Z) : Z := ld m (a + 24) 8.

Fixpoint dseg (m : mem) (x : Z) (l : list Z) (e : Z) : Prop :=
  match l with
  | [] => nxt m x = e /\ prv m e = x
  | y :: l' => nxt m x = y /\ prv m y = x /\ dseg m y l' e
  end.

Record flok (g : cfg) (m : mem) (F : Z -> list Z) (fr : list (Z * Z)) : Prop := {
  fl_ring : forall i, 0 <= i < 48 -> dseg m (flist g i) (F i) (flist g i);
  fl_nodup : forall i, 0 <= i < 48 -> NoDup (F i);
  fl_in : forall i a, 0 <= i < 48 -> (In a (F i) <-> exists c, In (a, c) fr /\ insert_class c = Ok i);
  fl_stat : forall i, 0 <= i < 48 -> ld m (cpool g + POOL_STATUS + i) 1 = match F i with [] => 0 | _ => 1 end
}.

(** ** Ranges *)
Definition disj2 (x y : Z * Z) : Prop := fst x + snd x <= fst y \/ fst y + snd y <= fst x.

Record World (g : cfg) (r : list (Z * Z)) (m : mem) (A : list seg) : Prop := {
  wd_pool : 0 < cpool g /\ cpool g + POOL_SIZE <= AMAX;
  wd_rng : r = map segr A ++ [(cpool g, POOL_SIZE)];
  wd_disj : ForallOrdPairs disj2 r;
  wd_seg : Forall (segok g m) A
}.

Record Inv (g : cfg) (s : st) (A : list seg) (F : Z -> list Z) : Prop := {
  iv_w : World g (srng s) (smem s) A;
  iv_fl : flok g (smem s) F (frees A);
  iv_base : sbase s = 0 \/ exists sg, In sg A /\ gbase sg = sbase s
}.

(** ** Lists of chunks *)
Lemma tot_app l1 l2 : tot (l1 ++ l2) = tot l1 + tot l2.
Proof. induction l1 as [|[c k] l1 IH]; cbn [tot app]; lia. Qed.

Lemma lastsz_app l1 l2 : forall pv, lastsz pv (l1 ++ l2) = lastsz (lastsz pv l1) l2.
Proof. induction l1 as [|[c k] l1 IH]; intros pv; cbn [lastsz app]; auto. Qed.

Lemma frees_from_app l1 l2 : forall a, frees_from a (l1 ++ l2) = frees_from a l1 ++ frees_from (a + tot l1) l2.
Proof.
  induction l1 as [|[c k] l1 IH]; intros a; cbn [frees_from app tot].
  - f_equal. lia.
  - rewrite IH, app_assoc. do 2 f_equal. lia.
Qed.
Lemma cells_from_app l1 l2 : forall a, cells_from a (l1 ++ l2) = cells_from a l1 ++ cells_from (a + tot l1) l2.
Proof.
  induction l1 as [|[c k] l1 IH]; intros a; cbn [cells_from app tot].
  - f_equal. lia.
  - rewrite IH, app_assoc. do 2 f_equal. lia.
Qed.
Lemma used_from_app l1 l2 : forall a, used_from a (l1 ++ l2) = used_from a l1 ++ used_from (a + tot l1) l2.
Proof.
  induction l1 as [|[c k] l1 IH]; intros a; cbn [used_from app tot].
  - f_equal. lia.
  - rewrite IH, app_assoc. do 2 f_equal. lia.
Qed.
Lemma liveb_app l1 l2 x : forall a, liveb a (l1 ++ l2) x <-> liveb a l1 x \/ liveb (a + tot l1) l2 x.
Proof.
  induction l1 as [|[c k] l1 IH]; intros a; cbn [liveb app tot].
  - replace (a + 0) with a by lia. tauto.
  - rewrite IH. replace (a + c + tot l1) with (a + (c + tot l1)) by lia. tauto.
Qed.
Lemma cks_app m l1 l2 : forall a pv,
  cks m a pv (l1 ++ l2) <-> cks m a pv l1 /\ cks m (a + tot l1) (lastsz pv l1) l2.
Proof.
  induction l1 as [|[c k] l1 IH]; intros a pv; cbn [cks app tot lastsz].
  - replace (a + 0) with a by lia. tauto.
  - rewrite IH. replace (a + c + tot l1) with (a + (c + tot l1)) by lia. tauto.
Qed.

Lemma cks_tot m l : forall a pv, cks m a pv l -> 0 <= tot l.
Proof.
  induction l as [|[c k] l IH]; intros a pv H; cbn [tot cks] in *; [lia|].
  destruct H as (H1 & H2 & H3 & H4 & H5). apply IH in H5. lia.
Qed.
Lemma cks_tot16 m l : forall a pv, cks m a pv l -> tot l mod 16 = 0.
Proof.
  induction l as [|[c k] l IH]; intros a pv H; cbn [tot cks] in *; [reflexivity|].
  destruct H as (H1 & H2 & H3 & H4 & H5). apply IH in H5. lia.
Qed.
(** number of chunks *)
Lemma cks_len m l : forall a pv, cks m a pv l -> 32 * Z.of_nat (length l) <= tot l.
Proof.
  induction l as [|[c k] l IH]; intros a pv H; cbn [tot cks length] in *; [lia|].
  destruct H as (H1 & H2 & H3 & H4 & H5). apply IH in H5. lia.
Qed.

Lemma cells_range m l : forall a pv w c, cks m a pv l -> In (w, c) (cells_from a l) ->
  a <= w /\ w + c <= a + tot l /\ 32 <= c /\ c mod 16 = 0.
Proof.
  induction l as [|[c0 k] l IH]; intros a pv w c H HIn; cbn [tot cks cells_from] in *; [contradiction|].
  destruct H as (H1 & H2 & H3 & H4 & H5). assert (T := cks_tot _ _ _ _ H5).
  rewrite in_app_iff in HIn. destruct HIn as [HIn|HIn].
  - destruct k; cbn in HIn; try contradiction; destruct HIn as [E|[]]; injection E as <- <-; lia.
  - specialize (IH _ _ _ _ H5 HIn). lia.
Qed.

Lemma frees_cells l : forall a w c, In (w, c) (frees_from a l) -> In (w, c) (cells_from a l).
Proof.
  induction l as [|[c0 k] l IH]; intros a w c H; cbn [frees_from cells_from] in *; [contradiction|].
  rewrite in_app_iff in *. destruct H as [H|H].
  - left. destruct k; cbn in *; auto.
  - right. auto.
Qed.

Lemma meta_range m l x : forall a pv, cks m a pv l -> meta a l x -> a <= x < a + tot l.
Proof.
  induction l as [|[c k] l IH]; intros a pv H HM; cbn [tot cks meta] in *; [contradiction|].
  destruct H as (H1 & H2 & H3 & H4 & H5). assert (T := cks_tot _ _ _ _ H5).
  destruct HM as [HM|[HM|HM]].
  - lia.
  - destruct k; try contradiction. cbn [kok] in H4. lia.
  - specialize (IH _ _ H5 HM). lia.
Qed.

Lemma liveb_range m l x : forall a pv, cks m a pv l -> liveb a l x -> a + 16 <= x < a + tot l.
Proof.
  induction l as [|[c k] l IH]; intros a pv H HM; cbn [tot cks liveb] in *; [contradiction|].
  destruct H as (H1 & H2 & H3 & H4 & H5). assert (T := cks_tot _ _ _ _ H5).
  destruct HM as [HM|HM].
  - destruct k; try contradiction. cbn [kok] in H4. lia.
  - specialize (IH _ _ H5 HM). lia.
Qed.

Lemma cell_not_meta m l x : forall a pv w c, cks m a pv l -> In (w, c) (cells_from a l) ->
  w + 16 <= x < w + c -> ~ meta a l x.
Proof.
  induction l as [|[c0 k] l IH]; intros a pv w c H HIn Hx HM; cbn [tot cks cells_from meta] in *; [contradiction|].
  destruct H as (H1 & H2 & H3 & H4 & H5).
  rewrite in_app_iff in HIn. destruct HIn as [HIn|HIn].
  - assert (R : meta (a + c0) l x -> a + c0 <= x) by (intros R; apply (meta_range _ _ _ _ _ H5) in R; lia).
    destruct k; cbn in HIn; try contradiction; destruct HIn as [E|[]]; injection E as <- <-;
    destruct HM as [HM|[HM|HM]]; try contradiction; try (apply R in HM); lia.
  - assert (R := cells_range _ _ _ _ _ _ H5 HIn).
    destruct HM as [HM|[HM|HM]]; [lia| |exact (IH _ _ _ _ H5 HIn Hx HM)].
    destruct k; try contradiction. cbn [kok] in H4. lia.
Qed.

Lemma cell_not_live m l x : forall a pv w c, cks m a pv l -> In (w, c) (cells_from a l) ->
  w <= x < w + c -> ~ liveb a l x.
Proof.
  induction l as [|[c0 k] l IH]; intros a pv w c H HIn Hx HM; cbn [tot cks cells_from liveb] in *; [contradiction|].
  destruct H as (H1 & H2 & H3 & H4 & H5).
  rewrite in_app_iff in HIn. destruct HIn as [HIn|HIn].
  - assert (R : liveb (a + c0) l x -> a + c0 <= x) by (intros R; apply (liveb_range _ _ _ _ _ H5) in R; lia).
    destruct k; cbn in HIn; try contradiction; destruct HIn as [E|[]]; injection E as <- <-;
    destruct HM as [HM|HM]; try contradiction; apply R in HM; lia.
  - assert (R := cells_range _ _ _ _ _ _ H5 HIn).
    destruct HM as [HM|HM]; [|exact (IH _ _ _ _ H5 HIn Hx HM)].
    destruct k; try contradiction. lia.
Qed.

(** The header of any chunk is not a live byte. *)
Lemma meta_not_live m l x : forall a pv, cks m a pv l -> meta a l x -> ~ liveb a l x.
Proof.
  induction l as [|[c0 k] l IH]; intros a pv H HM HL; cbn [tot cks meta liveb] in *; [contradiction|].
  destruct H as (H1 & H2 & H3 & H4 & H5).
  destruct HL as [HL|HL].
  - destruct k as [| |p n d]; try contradiction. cbn [kok] in H4.
    destruct HM as [HM|[HM|HM]]; [lia|lia|]. apply (meta_range _ _ _ _ _ H5) in HM. lia.
  - assert (R := liveb_range _ _ _ _ _ H5 HL).
    destruct HM as [HM|[HM|HM]]; [lia| |exact (IH _ _ H5 HM HL)].
    destruct k as [| |p n d]; try contradiction. cbn [kok] in H4. lia.
Qed.

Lemma two_cells m l : forall a pv w c w' c', cks m a pv l ->
  In (w, c) (cells_from a l) -> In (w', c') (cells_from a l) ->
  (w = w' /\ c = c') \/ w + c <= w' \/ w' + c' <= w.
Proof.
  induction l as [|[c0 k] l IH]; intros a pv w c w' c' H H1 H2; cbn [cks cells_from] in *; [contradiction|].
  destruct H as (K1 & K2 & K3 & K4 & K5).
  rewrite in_app_iff in *.
  destruct H1 as [H1|H1], H2 as [H2|H2].
  - destruct k; cbn in *; try contradiction; destruct H1 as [E|[]], H2 as [E'|[]];
    injection E as <- <-; injection E' as <- <-; auto.
  - apply (cells_range _ _ _ _ _ _ K5) in H2.
    destruct k; cbn in *; try contradiction; destruct H1 as [E|[]]; injection E as <- <-; lia.
  - apply (cells_range _ _ _ _ _ _ K5) in H1.
    destruct k; cbn in *; try contradiction; destruct H2 as [E|[]]; injection E as <- <-; lia.
  - eapply IH; eauto.
Qed.

(** Frame *)
Lemma hdr_frame m m' P a sz pv inf : chg m m' P -> (forall x, a <= x < a + 16 -> ~ P x) ->
  hdr m a sz pv inf -> hdr m' a sz pv inf.
Proof.
  intros HC HP (H1 & H2 & H3). unfold hdr.
  rewrite !(chg_ld m m' P) by (auto; intros x Hx; apply HP; lia). auto.
Qed.

Lemma cks_frame m m' P l : chg m m' P -> forall a pv, (forall x, meta a l x -> ~ P x) ->
  cks m a pv l -> cks m' a pv l.
Proof.
  intros HC. induction l as [|[c k] l IH]; intros a pv HP H; cbn [cks meta] in *; [exact I|].
  destruct H as (H1 & H2 & H3 & H4 & H5). split; [exact H1|]. split; [exact H2|].
  split; [apply (hdr_frame m m' P); auto|].
  split; [|apply IH; auto].
  destruct k as [| |p n d]; cbn [kok] in *; auto.
  destruct H4 as (K1 & K2 & K3 & K4 & K5 & K8).
  split; [exact K1|]. split; [exact K2|]. split; [exact K3|]. split; [exact K4|]. split; [|exact K8].
  destruct K5 as [K5|(K5 & K6 & K7)]; [left; auto|right].
  rewrite !(chg_ld m m' P) by (auto; intros x Hx; apply HP; right; left; lia). auto.
Qed.

Definition segmeta (sg : seg) (x : Z) : Prop :=
  gbase sg <= x < gbase sg + 32 \/ meta (gbase sg + 32) (gchunks sg) x \/
  gbase sg + gsize sg - 16 <= x < gbase sg + gsize sg.

Lemma segok_frame g m m' P sg : chg m m' P -> (forall x, segmeta sg x -> ~ P x) ->
  segok g m sg -> segok g m' sg.
Proof.
  intros HC HP (H1 & H2 & H3 & H4 & H5 & H6 & H7). unfold segmeta in HP.
  assert (T := cks_tot _ _ _ _ H6).
  split; [auto|]. split; [auto|]. split; [auto|].
  split. { apply (hdr_frame m m' P); auto. intros x Hx. apply HP. lia. }
  split. { intros R. rewrite (chg_ld m m' P); auto. intros x Hx. apply HP. lia. }
  split. { apply (cks_frame m m' P); auto. }
  apply (hdr_frame m m' P); auto. intros x Hx. apply HP. lia.
Qed.

Lemma segmeta_range g m sg x : segok g m sg -> segmeta sg x -> gbase sg <= x < gbase sg + gsize sg.
Proof.
  intros (H1 & H2 & H3 & H4 & H5 & H6 & H7) HM. assert (T := cks_tot _ _ _ _ H6).
  destruct HM as [HM|[HM|HM]]; try lia. apply (meta_range _ _ _ _ _ H6) in HM. lia.
Qed.

Lemma segmeta_not_live g m sg x : segok g m sg -> segmeta sg x -> ~ liveb (gbase sg + 32) (gchunks sg) x.
Proof.
  intros (H1 & H2 & H3 & H4 & H5 & H6 & H7) HM HL.
  assert (R := liveb_range _ _ _ _ _ H6 HL).
  destruct HM as [HM|[HM|HM]]; try lia. eapply meta_not_live; eauto.
Qed.

(** ** Segments *)
Lemma FOP_app {T} (R : T -> T -> Prop) l1 l2 :
  ForallOrdPairs R (l1 ++ l2) <->
  ForallOrdPairs R l1 /\ ForallOrdPairs R l2 /\ (forall x y, In x l1 -> In y l2 -> R x y).
Proof.
  induction l1 as [|a l1 IH]; cbn [app].
  - split; [intros H; repeat split; auto; [constructor|contradiction]|tauto].
  - split.
    + intros H. inversion H as [|? ? H1 H2]; subst. apply IH in H2 as (H2 & H3 & H4).
      rewrite Forall_app in H1. destruct H1 as [H1 H1'].
      split; [constructor; auto|]. split; [auto|].
      intros x y [<-|Hx] Hy; [|auto]. rewrite Forall_forall in H1'. auto.
    + intros (H1 & H2 & H3). inversion H1 as [|? ? H4 H5]; subst.
      constructor.
      * rewrite Forall_app. split; [auto|]. rewrite Forall_forall. intros y Hy. apply H3; [left; auto|auto].
      * apply IH. split; [auto|]. split; [auto|]. intros x y Hx Hy. apply H3; [right; auto|auto].
Qed.

Lemma disj2_sym x y : disj2 x y -> disj2 y x.
Proof. unfold disj2. tauto. Qed.

Section W.
  Context (g : cfg) (r : list (Z * Z)) (m : mem) (A : list seg).
  Hypothesis W : World g r m A.

  Lemma w_segok sg : In sg A -> segok g m sg.
  Proof using W. intros H. destruct W as [_ _ _ H4]. rewrite Forall_forall in H4. auto. Qed.

  Lemma w_in_rng sg : In sg A -> In (gbase sg, gsize sg) r.
  Proof using W.
    intros H. destruct W as [_ H2 _ _]. rewrite H2, in_app_iff. left.
    apply in_map_iff. exists sg. auto.
  Qed.

  Lemma w_pool_rng : In (cpool g, POOL_SIZE) r.
  Proof using W. destruct W as [_ H2 _ _]. rewrite H2, in_app_iff. right. left. reflexivity. Qed.

  Lemma w_pool_disj sg : In sg A -> disj2 (gbase sg, gsize sg) (cpool g, POOL_SIZE).
  Proof using W.
    intros H. destruct W as [_ H2 H3 _]. rewrite H2, FOP_app in H3. destruct H3 as (_ & _ & H3).
    apply H3; [apply in_map_iff; exists sg; auto|left; reflexivity].
  Qed.

  Lemma w_two_segs A1 sg A2 sg' : A = A1 ++ sg :: A2 -> In sg' (A1 ++ A2) ->
    disj2 (gbase sg, gsize sg) (gbase sg', gsize sg').
  Proof using W.
    intros E HIn. destruct W as [_ H2 H3 _]. rewrite H2, FOP_app in H3. destruct H3 as (H3 & _ & _).
    rewrite E, map_app, FOP_app in H3. destruct H3 as (_ & H3 & H4).
    rewrite in_app_iff in HIn. destruct HIn as [HIn|HIn].
    - apply disj2_sym. apply (H4 (segr sg') (segr sg)); [apply in_map; auto|left; reflexivity].
    - cbn [map] in H3. inversion H3 as [|? ? H5 _]; subst. rewrite Forall_forall in H5.
      apply (H5 (segr sg')). apply in_map. auto.
  Qed.

  (** Two segments are the same or disjoint. *)
  Lemma w_segs_eq_or_disj sg sg' : In sg A -> In sg' A ->
    sg = sg' \/ disj2 (gbase sg, gsize sg) (gbase sg', gsize sg').
  Proof using W.
    intros H H'. apply in_split in H as (A1 & A2 & E).
    rewrite E, in_app_iff in H'. destruct H' as [H'|[H'|H']]; auto.
    - right. eapply w_two_segs; eauto. rewrite in_app_iff. auto.
    - right. eapply w_two_segs; eauto. rewrite in_app_iff. auto.
  Qed.

  (** Cells *)
  Lemma w_cell w c : In (w, c) (cells A) -> exists sg, In sg A /\
    In (w, c) (cells_from (gbase sg + 32) (gchunks sg)) /\
    gbase sg + 32 <= w /\ w + c <= gbase sg + gsize sg - 16 /\ 32 <= c /\ c mod 16 = 0.
  Proof using W.
    intros H. unfold cells in H. rewrite in_flat_map in H. destruct H as (sg & H1 & H2).
    exists sg. split; [auto|]. split; [auto|].
    destruct (w_segok sg H1) as (K1 & K2 & K3 & K4 & K5 & K6 & K7).
    assert (R := cells_range _ _ _ _ _ _ K6 H2). lia.
  Qed.

  Lemma w_cells_sep w c w' c' : In (w, c) (cells A) -> In (w', c') (cells A) ->
    (w = w' /\ c = c') \/ w + c <= w' \/ w' + c' <= w.
  Proof using W.
    intros H H'. destruct (w_cell _ _ H) as (sg & S1 & S2 & S3 & S4 & S5 & _).
    destruct (w_cell _ _ H') as (sg' & S1' & S2' & S3' & S4' & S5' & _).
    destruct (w_segs_eq_or_disj sg sg' S1 S1') as [E|D].
    - subst sg'. destruct (w_segok sg S1) as (K1 & K2 & K3 & K4 & K5 & K6 & K7).
      eapply two_cells; eauto.
    - unfold disj2 in D. cbn [fst snd] in D. lia.
  Qed.

  Lemma frees_in_cells w c : In (w, c) (frees A) -> In (w, c) (cells A).
  Proof using.
    unfold frees, cells. rewrite !in_flat_map. intros (sg & H1 & H2). exists sg. split; auto.
    apply frees_cells. auto.
  Qed.

  (** Nodes of the free lists: list heads and cells. *)
  Definition node (z : Z) : Prop :=
    (exists i, 0 <= i < 48 /\ z = flist g i) \/ exists c, In (z, c) (cells A).

  Lemma node_sep z w : node z -> node w -> z = w \/ z + 32 <= w \/ w + 32 <= z.
  Proof using W.
    unfold node, flist. intros [(i & Hi & ->)|(c & Hc)] [(j & Hj & ->)|(d & Hd)].
    - lia.
    - destruct (w_cell _ _ Hd) as (sg & S1 & S2 & S3 & S4 & S5 & _).
      assert (D := w_pool_disj sg S1). unfold disj2, POOL_SIZE in D. cbn [fst snd] in D. lia.
    - destruct (w_cell _ _ Hc) as (sg & S1 & S2 & S3 & S4 & S5 & _).
      assert (D := w_pool_disj sg S1). unfold disj2, POOL_SIZE in D. cbn [fst snd] in D. lia.
    - destruct (w_cells_sep _ _ _ _ Hc Hd) as [[E _]|D]; [left; exact E|].
      destruct (w_cell _ _ Hc) as (_ & _ & _ & _ & _ & S5 & _).
      destruct (w_cell _ _ Hd) as (_ & _ & _ & _ & _ & S5' & _). lia.
  Qed.

  Lemma node_status z : node z -> z + 32 <= cpool g + POOL_STATUS \/ cpool g + POOL_SIZE <= z.
  Proof using W.
    unfold node, flist, POOL_STATUS. intros [(i & Hi & ->)|(c & Hc)].
    - lia.
    - destruct (w_cell _ _ Hc) as (sg & S1 & S2 & S3 & S4 & S5 & _).
      assert (D := w_pool_disj sg S1). unfold disj2, POOL_SIZE in *. cbn [fst snd] in D. lia.
  Qed.

  Lemma node_range z : node z -> 0 < z /\ z + 32 <= AMAX.
  Proof using W.
    assert (P := wd_pool _ _ _ _ W). unfold POOL_SIZE in P.
    unfold node, flist. intros [(i & Hi & ->)|(c & Hc)].
    - lia.
    - destruct (w_cell _ _ Hc) as (sg & S1 & S2 & S3 & S4 & S5 & _).
      destruct (w_segok sg S1) as (K1 & K2 & _). lia.
  Qed.

  Lemma node_acc z : node z -> accb r z 32 = true.
  Proof using W.
    unfold node, flist. intros [(i & Hi & ->)|(c & Hc)].
    - eapply accb_intro; [apply w_pool_rng|lia|unfold POOL_SIZE; lia].
    - destruct (w_cell _ _ Hc) as (sg & S1 & S2 & S3 & S4 & S5 & _).
      eapply accb_intro; [apply w_in_rng; exact S1|lia|lia].
  Qed.

  (** Bytes of pool and of the bodies of cells. *)
  Definition body (x : Z) : Prop :=
    cpool g <= x < cpool g + POOL_SIZE \/ exists w c, In (w, c) (cells A) /\ w + 16 <= x < w + c.

  Lemma node_body z x : node z -> z + 16 <= x < z + 32 -> body x.
  Proof using W.
    unfold node, body, flist. intros [(i & Hi & ->)|(c & Hc)] Hx.
    - left. unfold POOL_SIZE. lia.
    - right. exists z, c. split; [auto|]. destruct (w_cell _ _ Hc) as (_ & _ & _ & _ & _ & S5 & _). lia.
  Qed.

  Lemma body_scratch x : body x -> scratch g A x.
  Proof using W.
    intros [H|(w & c & Hc & Hx)]; [left; auto|]. right.
    destruct (w_cell _ _ Hc) as (sg & S1 & S2 & S3 & S4 & S5 & _).
    exists sg. split; [auto|]. split; [lia|].
    destruct (w_segok sg S1) as (K1 & K2 & K3 & K4 & K5 & K6 & K7).
    eapply cell_not_live; eauto. lia.
  Qed.

  Lemma body_not_meta sg x : In sg A -> segmeta sg x -> ~ body x.
  Proof using W.
    intros HS HM HB. assert (R := segmeta_range g m sg x (w_segok sg HS) HM).
    destruct HB as [H|(w & c & Hc & Hx)].
    - assert (D := w_pool_disj sg HS). unfold disj2 in D. cbn [fst snd] in D. lia.
    - destruct (w_cell _ _ Hc) as (sg' & S1 & S2 & S3 & S4 & S5 & _).
      destruct (w_segs_eq_or_disj sg sg' HS S1) as [E|D].
      + subst sg'. destruct (w_segok sg S1) as (K1 & K2 & K3 & K4 & K5 & K6 & K7).
        destruct HM as [HM|[HM|HM]]; [lia| |lia]. revert HM. eapply cell_not_meta; eauto.
      + unfold disj2 in D. cbn [fst snd] in D. lia.
  Qed.

  Lemma world_body m' : chg m m' body -> World g r m' A.
  Proof using W.
    intros HC. destruct W as [P1 P2 P3 P4]. constructor; auto.
    rewrite Forall_forall in *. intros sg HS.
    apply (segok_frame g m m' body); auto. intros x HM. exact (body_not_meta sg x HS HM).
  Qed.
End W.

Lemma World_weaken_chg g r m m' A : World g r m A ->
  chg m m' (fun x => forall sg, In sg A -> ~ segmeta sg x) -> World g r m' A.
Proof.
  intros W HC. destruct W as [P1 P2 P3 P4]. constructor; auto.
  rewrite Forall_forall in *. intros sg HS.
  apply (segok_frame g m m' (fun x => forall sg, In sg A -> ~ segmeta sg x)); auto.
  intros x HM HP. exact (HP sg HS HM).
Qed.
