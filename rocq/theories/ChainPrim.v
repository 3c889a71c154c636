(** Specifications of the primitives of a chain: removal, insertion, search, split, merge. *)
From Verif Require Import Word Res Mem SizeClassModel SizeClassProofs ChainModel Wp ChainInv ChainZip ChainList ChainFl.
From Coq Require Import ZArith List Bool Lia.
Import ListNotations.
Open Scope Z_scope.

Lemma cells_kind S1 b z l1 c k k' l2 S2 :
  (match k with Us _ _ _ => False | _ => True end) -> (match k' with Us _ _ _ => False | _ => True end) ->
  cells (S1 ++ mkSeg b z (l1 ++ (c, k) :: l2) :: S2) = cells (S1 ++ mkSeg b z (l1 ++ (c, k') :: l2) :: S2).
Proof.
  intros H H'. rewrite !cells_mid, !cells_from_app. cbn [cells_from].
  destruct k, k'; try contradiction; reflexivity.
Qed.

Lemma cell_mid S1 b z l1 c k l2 S2 a : a = b + 32 + tot l1 -> (match k with Us _ _ _ => False | _ => True end) ->
  In (a, c) (cells (S1 ++ mkSeg b z (l1 ++ (c, k) :: l2) :: S2)).
Proof.
  intros -> H. rewrite cells_mid, cells_from_app, !in_app_iff. cbn [cells_from]. rewrite in_app_iff.
  right. left. right. left. destruct k; try contradiction; left; reflexivity.
Qed.

Lemma free_mid S1 b z l1 c l2 S2 a : a = b + 32 + tot l1 ->
  In (a, c) (frees (S1 ++ mkSeg b z (l1 ++ (c, Fr) :: l2) :: S2)).
Proof.
  intros ->. rewrite frees_mid, frees_from_app, !in_app_iff. cbn [frees_from]. rewrite in_app_iff.
  right. left. right. left. left. reflexivity.
Qed.

(** frees when one chunk changes from Fr to Lk. *)
Lemma frees_unfree g r m S1 b z l1 c l2 S2 a w d :
  World g r m (S1 ++ mkSeg b z (l1 ++ (c, Fr) :: l2) :: S2) -> a = b + 32 + tot l1 ->
  (In (w, d) (frees (S1 ++ mkSeg b z (l1 ++ (c, Lk) :: l2) :: S2)) <->
   In (w, d) (frees (S1 ++ mkSeg b z (l1 ++ (c, Fr) :: l2) :: S2)) /\ w <> a).
Proof.
  intros W Ea.
  assert (HC := world_chunk _ _ _ _ _ _ _ _ _ _ _ _ W Ea). destruct HC as (Hc & _).
  change (l1 ++ (c, Fr) :: l2) with (l1 ++ [(c, Fr)] ++ l2) in *.
  change (l1 ++ (c, Lk) :: l2) with (l1 ++ [(c, Lk)] ++ l2).
  rewrite !(frees_split _ _ _ _ _ _ _ a) by exact Ea. cbn [frees_from app tot] in *.
  assert (O := frees_outside g r m S1 b z l1 [(c, Fr)] l2 S2 a w d W Ea ltac:(discriminate)). cbn [tot] in O.
  split.
  - intros [[]|K]. split; [right; exact K|]. specialize (O K).
    assert (32 <= d).
    { assert (In (w, d) (cells (S1 ++ mkSeg b z (l1 ++ [(c, Fr)] ++ l2) :: S2))).
      { apply frees_in_cells. apply (frees_split S1 b z l1 [(c, Fr)] l2 S2 a); [exact Ea|]. right. cbn [tot]. exact K. }
      eapply cell_size_range; eauto. }
    lia.
  - intros [[[K|[]]|K] N]; [injection K as <- <-; contradiction|right; exact K].
Qed.

Lemma frees_tofree g r m S1 b z l1 c l2 S2 a w d :
  World g r m (S1 ++ mkSeg b z (l1 ++ (c, Lk) :: l2) :: S2) -> a = b + 32 + tot l1 ->
  (In (w, d) (frees (S1 ++ mkSeg b z (l1 ++ (c, Fr) :: l2) :: S2)) <->
   In (w, d) (frees (S1 ++ mkSeg b z (l1 ++ (c, Lk) :: l2) :: S2)) \/ (w = a /\ d = c)).
Proof.
  intros W Ea.
  change (l1 ++ (c, Fr) :: l2) with (l1 ++ [(c, Fr)] ++ l2) in *.
  change (l1 ++ (c, Lk) :: l2) with (l1 ++ [(c, Lk)] ++ l2).
  rewrite !(frees_split _ _ _ _ _ _ _ a) by exact Ea. cbn [frees_from app tot In] in *.
  split.
  - intros [[K|[]]|K]; [injection K as <- <-; auto|auto].
  - intros [[[]|K]|[-> ->]]; auto.
Qed.

Lemma lk_not_free g r m S1 b z l1 c l2 S2 a d :
  World g r m (S1 ++ mkSeg b z (l1 ++ (c, Lk) :: l2) :: S2) -> a = b + 32 + tot l1 ->
  ~ In (a, d) (frees (S1 ++ mkSeg b z (l1 ++ (c, Lk) :: l2) :: S2)).
Proof.
  intros W Ea K.
  assert (HC := world_chunk _ _ _ _ _ _ _ _ _ _ _ _ W Ea). destruct HC as (Hc & _).
  assert (Hd : 32 <= d) by (eapply cell_size_range; [exact W|apply frees_in_cells; exact K]).
  change (l1 ++ (c, Lk) :: l2) with (l1 ++ [(c, Lk)] ++ l2) in *.
  apply (frees_split _ _ _ _ _ _ _ a) in K; [|exact Ea]. cbn [frees_from app tot In] in K. destruct K as [[]|K].
  assert (O := frees_outside g r m S1 b z l1 [(c, Lk)] l2 S2 a a d W Ea ltac:(discriminate) K). cbn [tot] in O. lia.
Qed.

(** Replacing one chunk by another of the same size, only its info byte (and maybe its body) changing. *)
Lemma world_rekind g r m m' S1 b z l1 c k k' l2 S2 a :
  World g r m (S1 ++ mkSeg b z (l1 ++ (c, k) :: l2) :: S2) -> a = b + 32 + tot l1 ->
  chg m m' (fun x => a + 15 <= x < a + c) ->
  ld m' (a + 15) 1 = info_of k' -> kok m' a c k' ->
  World g r m' (S1 ++ mkSeg b z (l1 ++ (c, k') :: l2) :: S2).
Proof.
  intros W Ea HG HI HK.
  assert (HC := world_chunk _ _ _ _ _ _ _ _ _ _ _ _ W Ea).
  destruct HC as (H1 & H2 & (H3 & H4 & H5) & H6 & H7 & H8 & H9 & H10 & H11 & H12 & _).
  eapply (world_replace g r m m' S1 b z l1 [(c, k)] [(c, k')] l2 S2 a); auto.
  - cbn [cks]. split; [auto|]. split; [auto|]. split; [|split; [auto|exact I]].
    unfold hdr. split; [|split; [|exact HI]]; rewrite (chg_ld m m' _ _ _ HG); auto; intros x Hx; cbn in Hx; lia.
  - eapply chg_weaken; [exact HG|]. intros x Hx. cbn [tot]. cbv beta in Hx. lia.
  - cbn [tot lastsz]. replace (a + (c + 0)) with (a + c) by lia.
    rewrite (chg_ld m m' _ _ _ HG) by (intros x Hx; cbn in Hx; lia). exact H12.
Qed.

Lemma chg_trans2 m m' m'' (P Q R : Z -> Prop) : chg m m' P -> chg m' m'' Q ->
  (forall x, P x -> R x) -> (forall x, Q x -> R x) -> chg m m'' R.
Proof.
  intros H1 H2 HP HQ. eapply chg_trans; eapply chg_weaken; eauto.
Qed.

Lemma remove_spec g s F S1 b z l1 c l2 S2 a :
  Inv g s (S1 ++ mkSeg b z (l1 ++ (c, Fr) :: l2) :: S2) F -> a = b + 32 + tot l1 ->
  wp (free_list_remove g a) s (fun _ s' =>
    exists F', Inv g s' (S1 ++ mkSeg b z (l1 ++ (c, Lk) :: l2) :: S2) F' /\ memonly s s' /\
    chg (smem s) (smem s') (scratch g (S1 ++ mkSeg b z (l1 ++ (c, Fr) :: l2) :: S2))).
Proof.
  intros [W FL HB] Ea. set (A := S1 ++ mkSeg b z (l1 ++ (c, Fr) :: l2) :: S2) in *.
  assert (Hfr : In (a, c) (frees A)) by (apply free_mid; exact Ea).
  assert (FR : forall w d, In (w, d) (frees A) -> In (w, d) (cells A)) by (intros; apply frees_in_cells; auto).
  assert (HC := world_chunk _ _ _ _ _ _ _ _ _ _ _ _ W Ea).
  destruct HC as (H1 & H2 & (H3 & H4 & H5) & H6 & H7 & H8 & H9 & H10 & H11 & H12 & _).
  destruct (insert_class_ok c) as (i & Ei & Hi & _); [eapply cell_size_range; [exact W|apply FR; exact Hfr]|].
  assert (Hi48 : 0 <= i < 48) by lia. clear Hi.
  assert (Ha : In a (F i)) by (apply (fl_in _ _ _ _ FL i a Hi48); eauto).
  apply in_split in Ha as (L1 & L2 & EF).
  assert (Na : node g A a) by (eapply node_free; eauto).
  assert (R := fl_ring _ _ _ _ FL i Hi48). rewrite EF, dseg_dsegf in R.
  set (P := prv (smem s) a). set (N := nxt (smem s) a).
  assert (PNI : In P (flist g i :: F i) /\ In N (flist g i :: F i) /\ (N = P -> P = flist g i)).
  { assert (ND := fl_nodup_head g (srng s) (smem s) A W F (frees A) FR FL i Hi48).
    rewrite EF in *. apply dsegf_app in R as [R1 R2].
    apply dsegf_last in R1 as (P0 & _ & E & K). apply dsegf_first in R2 as (N0 & E' & _ & K').
    fold P in E. fold N in E'. rewrite <- E in K. rewrite <- E' in K'. clear E E' P0 N0.
    apply NoDup_cons_iff in ND as [ND1 ND2].
    assert (X1 : P = flist g i \/ In P L1).
    { destruct K as [[_ ->]|(l & -> & _)]; [auto|right; rewrite in_app_iff; cbn; auto]. }
    assert (X2 : N = flist g i \/ In N L2).
    { destruct K' as [[_ ->]|(l & -> & _)]; [auto|right; cbn; auto]. }
    split; [|split].
    - destruct X1 as [->|X1]; [left; auto|right; rewrite in_app_iff; auto].
    - destruct X2 as [->|X2]; [left; auto|right; rewrite in_app_iff; cbn; auto].
    - intros E. destruct X1 as [X1|X1]; [exact X1|]. destruct X2 as [X2|X2]; [congruence|].
      exfalso. rewrite E in X2. clear - ND2 X1 X2. apply NoDup_remove_1 in ND2.
      induction L1 as [|y L1 IH]; cbn in *; [contradiction|]. apply NoDup_cons_iff in ND2 as [K1 K2].
      destruct X1 as [->|X1]; [apply K1; rewrite in_app_iff; auto|auto]. }
  destruct PNI as (PI & NI & PNE).
  assert (NP : node g A P) by (eapply (fl_node g (smem s) A F (frees A) FR FL i); auto).
  assert (NN : node g A N) by (eapply (fl_node g (smem s) A F (frees A) FR FL i); auto).
  assert (RP := node_range _ _ _ _ W P NP). assert (RN := node_range _ _ _ _ W N NN).
  assert (BIG : AMAX < W64) by (rewrite W64_val; lia).
  unfold free_list_remove.
  apply wp_bind. apply (wp_get_prev g (srng s) (smem s) A W); auto. fold P.
  apply wp_bind. apply (wp_get_next g (srng s) (smem s) A W); auto. fold N.
  apply wp_bind. apply (wp_set_prev g (srng s) (smem s) A W); auto. rewrite ?set_mem_mem, ?set_mem_eq.
  apply wp_bind. apply (wp_set_next g (srng s) (smem s) A W); auto. rewrite ?set_mem_mem, ?set_mem_eq.
  apply wp_bind.
  set (m2 := sto (sto (smem s) (N + 24) 8 P) (P + 16) 8 N).
  set (m3 := if N =? P then sto m2 (cpool g + POOL_STATUS + i) 1 0 else m2).
  apply wp_mono with (Q := fun _ s' => s' = set_mem s m3).
  { unfold m3. destruct (Z.eqb_spec N P) as [E|E].
    - rewrite (PNE E). apply (wp_status g (srng s) (smem s) A W); auto.
    - apply wp_ret. reflexivity. }
  intros _ s' ->.
  apply wp_bind. apply (wp_set_next g (srng s) (smem s) A W); auto. rewrite ?set_mem_mem, ?set_mem_eq.
  apply wp_bind. apply (wp_set_prev g (srng s) (smem s) A W); auto. rewrite ?set_mem_mem, ?set_mem_eq.
  set (m5 := sto (sto m3 (a + 16) 8 0) (a + 24) 8 0).
  assert (C5 : chg (smem s) m5 (body g A)).
  { unfold m5. apply (chg_node g (srng s) (smem s) A W); auto; try lia.
    apply (chg_node g (srng s) (smem s) A W); auto; try lia.
    assert (C2 : chg (smem s) m2 (body g A)).
    { unfold m2. apply (chg_node g (srng s) (smem s) A W); auto; try lia.
      apply (chg_node g (srng s) (smem s) A W); auto; try lia. apply chg_refl. }
    unfold m3. destruct (N =? P); [apply chg_stat; auto|auto]. }
  assert (W5 := world_body g (srng s) (smem s) A W m5 C5).
  assert (AC : accb (srng s) (a + 15) 1 = true) by (eapply accb_intro; [exact H11|lia|lia]).
  unfold set_state. apply wp_bind. apply wp_load; [exact AC|]. rewrite set_mem_eq.
  apply wp_store; [exact AC|]. rewrite set_mem_mem, set_mem_eq.
  assert (HC5 := world_chunk _ _ _ _ _ _ _ _ _ _ _ _ W5 Ea).
  destruct HC5 as (_ & _ & (_ & _ & I5) & _). cbn [info_of] in I5. rewrite I5.
  change (mk_info (i_type 129) S_ALLOC (i_magic 129)) with 133.
  set (m6 := sto m5 (a + 15) 1 133).
  set (A' := S1 ++ mkSeg b z (l1 ++ (c, Lk) :: l2) :: S2).
  assert (C56 : chg m5 m6 (fun x => a + 15 <= x < a + c)).
  { unfold m6. apply chg_sto; [apply chg_refl|]. intros x Hx. cbn in Hx. lia. }
  exists (fupd F i (L1 ++ L2)). split; [|split].
  - constructor.
    + apply (world_rekind g (srng s) m5 m6 S1 b z l1 c Fr Lk l2 S2 a); auto.
      * change (info_of Lk) with 133. apply ld1_same. lia.
    + apply (flok_remove g (srng s) (smem s) A F m6 i L1 a c L2); auto.
      * intros y Ny Ey. unfold m6, m5. rewrite (nxt_info g (srng s) (smem s) A W) by auto.
        rewrite (nxt_set_prev g (srng s) (smem s) A W) by auto.
        rewrite (nxt_set_next g (srng s) (smem s) A W) by (auto; lia).
        apply Z.eqb_neq in Ey. rewrite Ey.
        assert (E2 : nxt m2 y = if y =? P then N else nxt (smem s) y).
        { unfold m2. rewrite (nxt_set_next g (srng s) (smem s) A W) by (auto; lia).
          rewrite (nxt_set_prev g (srng s) (smem s) A W) by auto. reflexivity. }
        unfold m3. destruct (N =? P); [rewrite (nxt_stat g (srng s) (smem s) A W) by auto|]; exact E2.
      * intros y Ny Ey. unfold m6, m5. rewrite (prv_info g (srng s) (smem s) A W) by auto.
        rewrite (prv_set_prev g (srng s) (smem s) A W) by (auto; lia).
        apply Z.eqb_neq in Ey. rewrite Ey.
        rewrite (prv_set_next g (srng s) (smem s) A W) by auto.
        assert (E2 : prv m2 y = if y =? N then P else prv (smem s) y).
        { unfold m2. rewrite (prv_set_next g (srng s) (smem s) A W) by auto.
          rewrite (prv_set_prev g (srng s) (smem s) A W) by (auto; lia). reflexivity. }
        unfold m3. destruct (N =? P); [rewrite (prv_stat g (srng s) (smem s) A W) by auto|]; exact E2.
      * intros j Hj. unfold m6, m5.
        rewrite !(stat_node g (srng s) (smem s) A W) by (auto; lia).
        assert (E2 : ld m2 (cpool g + POOL_STATUS + j) 1 = ld (smem s) (cpool g + POOL_STATUS + j) 1).
        { unfold m2. rewrite !(stat_node g (srng s) (smem s) A W) by (auto; lia). reflexivity. }
        fold N. fold P. unfold m3. destruct (N =? P); cbn [andb]; [|exact E2].
        rewrite stat_stat by lia. destruct (j =? i); [reflexivity|exact E2].
      * intros w d. eapply frees_unfree; [exact W|exact Ea].
    + destruct HB as [HB|(sg & HS & HE)]; [left; exact HB|right].
      unfold A in HS. rewrite in_app_iff in HS. cbn [In] in HS. destruct HS as [HS|[HS|HS]].
      * exists sg. split; [apply in_or_app; left; exact HS|exact HE].
      * subst sg. exists (mkSeg b z (l1 ++ (c, Lk) :: l2)). split; [apply in_or_app; right; left; reflexivity|exact HE].
      * exists sg. split; [apply in_or_app; right; right; exact HS|exact HE].
  - apply memonly_set.
  - cbn [smem set_mem]. eapply chg_trans2; [exact C5|exact C56|apply (body_scratch _ _ _ _ W)|].
    intros x Hx. cbv beta in Hx. eapply (stretch_scratch g (srng s) (smem s) S1 b z l1 [(c, Fr)] l2 S2 a); [exact W|exact Ea| |cbn [tot]; lia].
    constructor; [exact I|constructor].
Qed.

Lemma base_replace (s : st) S1 b z l l' S2 :
  (sbase s = 0 \/ exists sg, In sg (S1 ++ mkSeg b z l :: S2) /\ gbase sg = sbase s) ->
  (sbase s = 0 \/ exists sg, In sg (S1 ++ mkSeg b z l' :: S2) /\ gbase sg = sbase s).
Proof.
  intros [HB|(sg & HS & HE)]; [left; exact HB|right].
  rewrite in_app_iff in HS. cbn [In] in HS. destruct HS as [HS|[HS|HS]].
  - exists sg. split; [apply in_or_app; left; exact HS|exact HE].
  - subst sg. exists (mkSeg b z l'). split; [apply in_or_app; right; left; reflexivity|exact HE].
  - exists sg. split; [apply in_or_app; right; right; exact HS|exact HE].
Qed.

Lemma dsegf_prv_last nx pv l x e : dsegf nx pv x l e -> pv e = last (x :: l) x.
Proof.
  intros H. apply dsegf_last in H as (P & _ & E & [[-> ->]|(l' & -> & _)]); [exact E|].
  rewrite app_comm_cons, last_last. exact E.
Qed.
Lemma dsegf_nxt_first nx pv l x e : dsegf nx pv x l e -> nx x = hd e l.
Proof. destruct l; cbn; tauto. Qed.

Lemma insert_spec g s F S1 b z l1 c l2 S2 a md :
  Inv g s (S1 ++ mkSeg b z (l1 ++ (c, Lk) :: l2) :: S2) F -> a = b + 32 + tot l1 ->
  wp (free_list_insert g a md) s (fun _ s' =>
    exists F', Inv g s' (S1 ++ mkSeg b z (l1 ++ (c, Fr) :: l2) :: S2) F' /\ memonly s s' /\
    chg (smem s) (smem s') (scratch g (S1 ++ mkSeg b z (l1 ++ (c, Lk) :: l2) :: S2))).
Proof.
  intros [W FL HB] Ea. set (A := S1 ++ mkSeg b z (l1 ++ (c, Lk) :: l2) :: S2) in *.
  set (A' := S1 ++ mkSeg b z (l1 ++ (c, Fr) :: l2) :: S2).
  assert (Hcell : In (a, c) (cells A)) by (apply cell_mid; [exact Ea|exact I]).
  assert (FR : forall w d, In (w, d) (frees A) -> In (w, d) (cells A)) by (intros; apply frees_in_cells; auto).
  assert (HC := world_chunk _ _ _ _ _ _ _ _ _ _ _ _ W Ea).
  destruct HC as (H1 & H2 & (H3 & H4 & H5) & H6 & H7 & H8 & H9 & H10 & H11 & H12 & _).
  destruct (insert_class_ok c) as (i & Ei & Hi & _); [eapply cell_size_range; [exact W|exact Hcell]|].
  assert (Hi48 : 0 <= i < 48) by lia. clear Hi.
  assert (Na : node g A a) by (eapply node_cell; eauto).
  assert (Nh : node g A (flist g i)) by (apply node_head; auto).
  assert (R := fl_ring _ _ _ _ FL i Hi48). rewrite dseg_dsegf in R.
  set (P := last (flist g i :: F i) (flist g i)). set (N := hd (flist g i) (F i)).
  assert (EP : prv (smem s) (flist g i) = P) by (eapply dsegf_prv_last; exact R).
  assert (EN : nxt (smem s) (flist g i) = N) by (eapply dsegf_nxt_first; exact R).
  assert (PI : In P (flist g i :: F i)).
  { unfold P. destruct (F i) as [|y l _] using rev_ind; [left; auto|]. rewrite app_comm_cons, last_last.
    right. rewrite in_app_iff. cbn. auto. }
  assert (NI : In N (flist g i :: F i)) by (unfold N; destruct (F i); cbn; auto).
  assert (NP : node g A P) by (eapply (fl_node g (smem s) A F (frees A) FR FL i); auto).
  assert (NN : node g A N) by (eapply (fl_node g (smem s) A F (frees A) FR FL i); auto).
  assert (NAF : forall d, ~ In (a, d) (frees A)) by (intros d; eapply lk_not_free; eauto).
  assert (NEQ : forall y, In y (flist g i :: F i) -> y <> a).
  { intros y [<-|Hy] E.
    - destruct (w_cell _ _ _ _ W _ _ Hcell) as (sg & K1 & _ & K3 & K4 & K5 & _).
      assert (D := w_pool_disj _ _ _ _ W sg K1). unfold disj2, POOL_SIZE, flist in *. cbn [fst snd] in D. lia.
    - subst y. apply (fl_in _ _ _ _ FL) in Hy as (d & K & _); [|auto]. eapply NAF; eauto. }
  assert (Ph : flist g i <> a) by (apply NEQ; left; reflexivity).
  assert (Pa : P <> a) by (apply NEQ; auto).
  assert (Naa : N <> a) by (apply NEQ; auto).
  assert (RP := node_range _ _ _ _ W P NP). assert (RN := node_range _ _ _ _ W N NN).
  assert (Ra := node_range _ _ _ _ W a Na). assert (Rh := node_range _ _ _ _ W _ Nh).
  assert (BIG : AMAX < W64) by (rewrite W64_val; lia).
  assert (AC : accb (srng s) (a + 15) 1 = true) by (eapply accb_intro; [exact H11|lia|lia]).
  set (m1 := sto (smem s) (a + 15) 1 129).
  assert (C1 : chg (smem s) m1 (fun x => a + 15 <= x < a + c)).
  { unfold m1. apply chg_sto; [apply chg_refl|]. intros x Hx. cbn in Hx. lia. }
  assert (W1 : World g (srng s) m1 A').
  { apply (world_rekind g (srng s) (smem s) m1 S1 b z l1 c Lk Fr l2 S2 a); auto.
    change (info_of Fr) with 129. apply ld1_same. lia. }
  assert (EC : cells A' = cells A) by (apply cells_kind; exact I).
  assert (EB : forall x, body g A' x -> body g A x) by (unfold body; rewrite EC; auto).
  assert (EN' : forall x, node g A x -> node g A' x) by (unfold node; rewrite EC; auto).
  assert (EN1 : forall y, node g A y -> nxt m1 y = nxt (smem s) y).
  { intros y Ny. unfold m1. apply (nxt_info g (srng s) (smem s) A W); auto. }
  assert (EP1 : forall y, node g A y -> prv m1 y = prv (smem s) y).
  { intros y Ny. unfold m1. apply (prv_info g (srng s) (smem s) A W); auto. }
  assert (ES1 : forall j, 0 <= j < 48 -> ld m1 (cpool g + POOL_STATUS + j) 1 = ld (smem s) (cpool g + POOL_STATUS + j) 1).
  { intros j Hj. unfold m1. apply (stat_node g (srng s) (smem s) A W); auto; lia. }
  assert (FIN : forall m4 L1 L2, F i = L1 ++ L2 -> (L1 = [] \/ L2 = []) ->
    (forall y, node g A y -> nxt m4 y = if y =? a then hd (flist g i) L2
       else if y =? last (flist g i :: L1) (flist g i) then a else nxt (smem s) y) ->
    (forall y, node g A y -> prv m4 y = if y =? a then last (flist g i :: L1) (flist g i)
       else if y =? hd (flist g i) L2 then a else prv (smem s) y) ->
    (forall j, 0 <= j < 48 -> ld m4 (cpool g + POOL_STATUS + j) 1 = ld (smem s) (cpool g + POOL_STATUS + j) 1) ->
    chg m1 m4 (body g A') ->
    wp (mark_status g (flist g i) 1) (set_mem s m4) (fun _ s' =>
      exists F', Inv g s' A' F' /\ memonly s s' /\ chg (smem s) (smem s') (scratch g A))).
  { intros m4 L1 L2 EF Hor HN HP HS C4.
    apply (wp_status g (srng s) (smem s) A W); auto. rewrite set_mem_mem, set_mem_eq.
    set (m5 := sto m4 (cpool g + POOL_STATUS + i) 1 1).
    assert (C5 : chg m1 m5 (body g A')) by (unfold m5; apply chg_stat; auto).
    exists (fupd F i (L1 ++ a :: L2)). split; [|split].
    - constructor.
      + exact (world_body g (srng s) m1 A' W1 m5 C5).
      + apply (flok_insert g (srng s) (smem s) A F m5 i L1 a c L2 (frees A)); auto.
        * intros y Ny. unfold m5. rewrite (nxt_stat g (srng s) (smem s) A W) by auto. auto.
        * intros y Ny. unfold m5. rewrite (prv_stat g (srng s) (smem s) A W) by auto. auto.
        * intros j Hj. cbn [smem set_mem]. unfold m5. rewrite stat_stat by lia. destruct (j =? i); auto.
        * intros w d. eapply frees_tofree; [exact W|exact Ea].
      + eapply base_replace. exact HB.
    - apply memonly_set.
    - cbn [smem set_mem]. eapply chg_trans2; [exact C1|exact C5| |].
      + intros x Hx. cbv beta in Hx. eapply (stretch_scratch g (srng s) (smem s) S1 b z l1 [(c, Lk)] l2 S2 a); [exact W|exact Ea| |cbn [tot]; lia].
        constructor; [exact I|constructor].
      + intros x Hx. apply (body_scratch _ _ _ _ W). apply EB. exact Hx. }
  unfold free_list_insert.
  apply wp_bind. apply wp_load; [eapply accb_intro; [exact H11|lia|cbn; lia]|]. rewrite H3.
  apply wp_bind. eapply wp_lift; [exact Ei|]. cbv zeta.
  apply wp_bind. unfold set_state. apply wp_bind. apply wp_load; [exact AC|]. cbn [info_of] in H5. rewrite H5.
  apply wp_store; [exact AC|].
  change (mk_info (i_type 133) S_FREE (i_magic 133)) with 129. fold m1.
  apply wp_bind. destruct md.
  - apply wp_bind. apply (wp_get_prev g (srng s) (smem s) A W); auto. rewrite set_mem_eq, EP1, EP by auto.
    apply wp_bind. apply (wp_set_prev g (srng s) (smem s) A W); auto. rewrite ?set_mem_mem, ?set_mem_eq.
    apply wp_bind. apply (wp_set_next g (srng s) (smem s) A W); auto. rewrite ?set_mem_mem, ?set_mem_eq.
    apply wp_bind. apply (wp_get_prev g (srng s) (smem s) A W); auto. rewrite set_mem_eq.
    rewrite (prv_set_next g (srng s) (smem s) A W), (prv_set_prev g (srng s) (smem s) A W) by (auto; lia).
    destruct (Z.eqb_spec (flist g i) a) as [X|_]; [contradiction|]. rewrite EP1, EP by auto.
    apply wp_bind. apply (wp_set_next g (srng s) (smem s) A W); auto. rewrite ?set_mem_mem, ?set_mem_eq.
    apply (wp_set_prev g (srng s) (smem s) A W); auto. rewrite ?set_mem_mem, ?set_mem_eq.
    apply (FIN _ (F i) []); [rewrite app_nil_r; reflexivity|auto| | | |].
    + intros y Ny. cbn [hd]. fold P.
      rewrite (nxt_set_prev g (srng s) (smem s) A W), (nxt_set_next g (srng s) (smem s) A W), (nxt_set_next g (srng s) (smem s) A W),
        (nxt_set_prev g (srng s) (smem s) A W), EN1 by (auto; lia).
      destruct (Z.eqb_spec y P) as [->|]; [|reflexivity]. destruct (Z.eqb_spec P a); [contradiction|reflexivity].
    + intros y Ny. cbn [hd]. fold P.
      rewrite (prv_set_prev g (srng s) (smem s) A W), (prv_set_next g (srng s) (smem s) A W), (prv_set_next g (srng s) (smem s) A W),
        (prv_set_prev g (srng s) (smem s) A W), EP1 by (auto; lia).
      destruct (Z.eqb_spec y (flist g i)) as [->|]; [|reflexivity]. destruct (Z.eqb_spec (flist g i) a); [contradiction|reflexivity].
    + intros j Hj. rewrite !(stat_node g (srng s) (smem s) A W) by (auto; lia). auto.
    + repeat (apply (chg_node g (srng s) m1 A' W1); [auto|lia|lia|]). apply chg_refl.
  - apply wp_bind. apply (wp_set_prev g (srng s) (smem s) A W); auto. rewrite ?set_mem_mem, ?set_mem_eq.
    apply wp_bind. apply (wp_get_next g (srng s) (smem s) A W); auto. rewrite set_mem_eq.
    rewrite (nxt_set_prev g (srng s) (smem s) A W), EN1, EN by auto.
    apply wp_bind. apply (wp_set_next g (srng s) (smem s) A W); auto. rewrite ?set_mem_mem, ?set_mem_eq.
    apply wp_bind. apply (wp_get_next g (srng s) (smem s) A W); auto. rewrite set_mem_eq.
    rewrite (nxt_set_next g (srng s) (smem s) A W), (nxt_set_prev g (srng s) (smem s) A W) by (auto; lia).
    destruct (Z.eqb_spec (flist g i) a) as [X|_]; [contradiction|]. rewrite EN1, EN by auto.
    apply wp_bind. apply (wp_set_prev g (srng s) (smem s) A W); auto. rewrite ?set_mem_mem, ?set_mem_eq.
    apply (wp_set_next g (srng s) (smem s) A W); auto. rewrite ?set_mem_mem, ?set_mem_eq.
    apply (FIN _ [] (F i)); [reflexivity|auto| | | |].
    + intros y Ny. cbn [last]. fold N.
      rewrite (nxt_set_next g (srng s) (smem s) A W), (nxt_set_prev g (srng s) (smem s) A W), (nxt_set_next g (srng s) (smem s) A W),
        (nxt_set_prev g (srng s) (smem s) A W), EN1 by (auto; lia).
      destruct (Z.eqb_spec y (flist g i)) as [->|]; [|reflexivity]. destruct (Z.eqb_spec (flist g i) a); [contradiction|reflexivity].
    + intros y Ny. cbn [last]. fold N.
      rewrite (prv_set_next g (srng s) (smem s) A W), (prv_set_prev g (srng s) (smem s) A W), (prv_set_next g (srng s) (smem s) A W),
        (prv_set_prev g (srng s) (smem s) A W), EP1 by (auto; lia).
      destruct (Z.eqb_spec y N) as [->|]; [|reflexivity]. destruct (Z.eqb_spec N a); [contradiction|reflexivity].
    + intros j Hj. rewrite !(stat_node g (srng s) (smem s) A W) by (auto; lia). auto.
    + repeat (apply (chg_node g (srng s) m1 A' W1); [auto|lia|lia|]). apply chg_refl.
Qed.
