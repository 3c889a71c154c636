(** Specifications of free list removal and insertion. *)
From Verif Require Import Word Res Mem SizeClassModel SizeClassProofs ChainModel Wp ChainInv ChainZip ChainList.
From Coq Require Import ZArith List Bool Lia.
Import ListNotations.
Open Scope Z_scope.

Lemma insert_class_ok c : 32 <= c < AMAX -> exists i, insert_class c = Ok i /\ 0 <= i <= 44 /\ i <> 43.
Proof.
  intros H. destruct (Z_le_gt_dec c MACRO_BLOC) as [L|L].
  - destruct (insert_small c) as (j & E & Hj & _); [lia|]. exists j. split; [exact E|lia].
  - exists 44. split; [apply insert_big; rewrite S63_val; unfold MACRO_BLOC in *; lia|lia].
Qed.

Lemma set_mem_eq s m : smem (set_mem s m) = m. Proof. reflexivity. Qed.
Lemma set_mem_rng s m : srng (set_mem s m) = srng s. Proof. reflexivity. Qed.
Lemma set_mem_mem s m m' : set_mem (set_mem s m) m' = set_mem s m'. Proof. reflexivity. Qed.
Lemma set_mem_id s : s = set_mem s (smem s). Proof. destruct s; reflexivity. Qed.

(** The kinds of equality between states used in specifications: only memory changes. *)
Definition memonly (s s' : st) : Prop := s' = set_mem s (smem s').

Lemma memonly_refl s : memonly s s. Proof. apply set_mem_id. Qed.
Lemma memonly_set s m : memonly s (set_mem s m). Proof. reflexivity. Qed.
Lemma memonly_trans s s' s'' : memonly s s' -> memonly s' s'' -> memonly s s''.
Proof. unfold memonly. intros H1 H2. rewrite H2, H1. reflexivity. Qed.
Lemma memonly_rng s s' : memonly s s' -> srng s' = srng s. Proof. unfold memonly. intros ->. reflexivity. Qed.
Lemma memonly_base s s' : memonly s s' -> sbase s' = sbase s. Proof. unfold memonly. intros ->. reflexivity. Qed.
Lemma memonly_send s s' : memonly s s' -> send s' = send s. Proof. unfold memonly. intros ->. reflexivity. Qed.
Lemma memonly_cnt s s' : memonly s s' -> scnt s' = scnt s. Proof. unfold memonly. intros ->. reflexivity. Qed.
Lemma memonly_evs s s' : memonly s s' -> sevs s' = sevs s. Proof. unfold memonly. intros ->. reflexivity. Qed.
Lemma memonly_rq s s' : memonly s s' -> rqh s' = rqh s /\ rqt s' = rqt s. Proof. unfold memonly. intros ->. auto. Qed.

Section L.
  Context (g : cfg) (r : list (Z * Z)) (m0 : mem) (A : list seg).
  Hypothesis W : World g r m0 A.

  Local Notation node := (node g A).

  Lemma wp_get_next z s (Q : Z -> st -> Prop) : srng s = r -> node z -> Q (nxt (smem s) z) s -> wp (get_next z) s Q.
  Proof using W.
    intros E N H. apply wp_load; [|exact H]. rewrite E.
    eapply accb_sub; [eapply node_acc; eauto|lia|cbn; lia].
  Qed.
  Lemma wp_get_prev z s (Q : Z -> st -> Prop) : srng s = r -> node z -> Q (prv (smem s) z) s -> wp (get_prev z) s Q.
  Proof using W.
    intros E N H. apply wp_load; [|exact H]. rewrite E.
    eapply accb_sub; [eapply node_acc; eauto|lia|cbn; lia].
  Qed.
  Lemma wp_set_next z v s (Q : unit -> st -> Prop) : srng s = r -> node z ->
    Q tt (set_mem s (sto (smem s) (z + 16) 8 v)) -> wp (set_next z v) s Q.
  Proof using W.
    intros E N H. apply wp_store; [|exact H]. rewrite E.
    eapply accb_sub; [eapply node_acc; eauto|lia|cbn; lia].
  Qed.
  Lemma wp_set_prev z v s (Q : unit -> st -> Prop) : srng s = r -> node z ->
    Q tt (set_mem s (sto (smem s) (z + 24) 8 v)) -> wp (set_prev z v) s Q.
  Proof using W.
    intros E N H. apply wp_store; [|exact H]. rewrite E.
    eapply accb_sub; [eapply node_acc; eauto|lia|cbn; lia].
  Qed.

  (** Reads after writes at nodes. *)
  Lemma nxt_set_next m p v z : node p -> node z -> 0 <= v < W64 ->
    nxt (sto m (p + 16) 8 v) z = if z =? p then v else nxt m z.
  Proof using W.
    intros Np Nz Hv. unfold nxt. destruct (Z.eqb_spec z p) as [->|E].
    - apply ld8_same. exact Hv.
    - apply ld_sto_other. destruct (node_sep _ _ _ _ W z p Nz Np) as [K|K]; [contradiction|]. cbn. lia.
  Qed.
  Lemma prv_set_next m p v z : node p -> node z -> prv (sto m (p + 16) 8 v) z = prv m z.
  Proof using W.
    intros Np Nz. unfold prv. apply ld_sto_other.
    destruct (node_sep _ _ _ _ W z p Nz Np) as [K|K]; cbn; lia.
  Qed.
  Lemma prv_set_prev m p v z : node p -> node z -> 0 <= v < W64 ->
    prv (sto m (p + 24) 8 v) z = if z =? p then v else prv m z.
  Proof using W.
    intros Np Nz Hv. unfold prv. destruct (Z.eqb_spec z p) as [->|E].
    - apply ld8_same. exact Hv.
    - apply ld_sto_other. destruct (node_sep _ _ _ _ W z p Nz Np) as [K|K]; [contradiction|]. cbn. lia.
  Qed.
  Lemma nxt_set_prev m p v z : node p -> node z -> nxt (sto m (p + 24) 8 v) z = nxt m z.
  Proof using W.
    intros Np Nz. unfold nxt. apply ld_sto_other.
    destruct (node_sep _ _ _ _ W z p Nz Np) as [K|K]; cbn; lia.
  Qed.
  Lemma nxt_info m w v z : node w -> node z -> nxt (sto m (w + 15) 1 v) z = nxt m z.
  Proof using W.
    intros Np Nz. unfold nxt. apply ld_sto_other.
    destruct (node_sep _ _ _ _ W z w Nz Np) as [K|K]; cbn; lia.
  Qed.
  Lemma prv_info m w v z : node w -> node z -> prv (sto m (w + 15) 1 v) z = prv m z.
  Proof using W.
    intros Np Nz. unfold prv. apply ld_sto_other.
    destruct (node_sep _ _ _ _ W z w Nz Np) as [K|K]; cbn; lia.
  Qed.
  Lemma nxt_stat m j v z : 0 <= j < 48 -> node z -> nxt (sto m (cpool g + POOL_STATUS + j) 1 v) z = nxt m z.
  Proof using W.
    intros Hj Nz. unfold nxt. apply ld_sto_other.
    destruct (node_status _ _ _ _ W z Nz) as [K|K]; unfold POOL_STATUS, POOL_SIZE in *; cbn; lia.
  Qed.
  Lemma prv_stat m j v z : 0 <= j < 48 -> node z -> prv (sto m (cpool g + POOL_STATUS + j) 1 v) z = prv m z.
  Proof using W.
    intros Hj Nz. unfold prv. apply ld_sto_other.
    destruct (node_status _ _ _ _ W z Nz) as [K|K]; unfold POOL_STATUS, POOL_SIZE in *; cbn; lia.
  Qed.
  (** Status bytes after writes at nodes. *)
  Lemma stat_node m z o n v j : node z -> 0 <= o -> o + Z.of_nat n <= 32 -> 0 <= j < 48 ->
    ld (sto m (z + o) n v) (cpool g + POOL_STATUS + j) 1 = ld m (cpool g + POOL_STATUS + j) 1.
  Proof using W.
    intros Nz Ho Hn Hj. apply ld_sto_other.
    destruct (node_status _ _ _ _ W z Nz) as [K|K]; unfold POOL_STATUS, POOL_SIZE in *; cbn; lia.
  Qed.
  Lemma stat_stat m i j v : 0 <= v < 256 ->
    ld (sto m (cpool g + POOL_STATUS + i) 1 v) (cpool g + POOL_STATUS + j) 1 =
    if j =? i then v else ld m (cpool g + POOL_STATUS + j) 1.
  Proof using.
    intros Hv. destruct (Z.eqb_spec j i) as [->|E].
    - apply ld1_same. exact Hv.
    - apply ld_sto_other. cbn. lia.
  Qed.

  Lemma chg_node m z o n v : node z -> 16 <= o -> o + Z.of_nat n <= 32 -> chg m0 m (body g A) ->
    chg m0 (sto m (z + o) n v) (body g A).
  Proof using W.
    intros Nz H1 H2 HC. apply chg_sto; [exact HC|]. intros x Hx. eapply node_body; eauto. lia.
  Qed.
  Lemma chg_stat m j v : 0 <= j < 48 -> chg m0 m (body g A) ->
    chg m0 (sto m (cpool g + POOL_STATUS + j) 1 v) (body g A).
  Proof using.
    intros H HC. apply chg_sto; [exact HC|]. intros x Hx. left. unfold POOL_STATUS, POOL_SIZE in *. cbn in Hx. lia.
  Qed.

  Lemma wp_status i v s (Q : unit -> st -> Prop) : srng s = r -> 0 <= i < 48 ->
    Q tt (set_mem s (sto (smem s) (cpool g + POOL_STATUS + i) 1 v)) -> wp (mark_status g (flist g i) v) s Q.
  Proof using W.
    intros E Hi H. unfold mark_status, list_id, flist.
    replace ((cpool g + 32 * i - cpool g) / 32) with i by lia.
    apply wp_store; [|exact H]. rewrite E.
    eapply accb_intro; [eapply w_pool_rng; exact W|unfold POOL_STATUS; lia|unfold POOL_STATUS, POOL_SIZE; cbn; lia].
  Qed.

  Lemma wp_load_status i s (Q : Z -> st -> Prop) : srng s = r -> 0 <= i < 48 ->
    Q (ld (smem s) (cpool g + POOL_STATUS + i) 1) s -> wp (loadn (cpool g + POOL_STATUS + i) 1) s Q.
  Proof using W.
    intros E Hi H. apply wp_load; [|exact H]. rewrite E.
    eapply accb_intro; [eapply w_pool_rng; exact W|unfold POOL_STATUS; lia|unfold POOL_STATUS, POOL_SIZE; cbn; lia].
  Qed.

  Lemma node_head i : 0 <= i < 48 -> node (flist g i).
  Proof using. intros H. left. exists i. auto. Qed.
  Lemma node_free a c : In (a, c) (frees A) -> node a.
  Proof using. intros H. right. exists c. apply frees_in_cells. auto. Qed.
  Lemma node_cell a c : In (a, c) (cells A) -> node a.
  Proof using. intros H. right. exists c. auto. Qed.

  (** In any sub-list of the cells, addresses determine sizes. *)
  Lemma cell_size a c c' : In (a, c) (cells A) -> In (a, c') (cells A) -> c = c'.
  Proof using W.
    intros H H'. destruct (w_cells_sep _ _ _ _ W _ _ _ _ H H') as [[_ E]|D]; [exact E|].
    destruct (w_cell _ _ _ _ W _ _ H) as (_ & _ & _ & _ & _ & K & _).
    destruct (w_cell _ _ _ _ W _ _ H') as (_ & _ & _ & _ & _ & K' & _). lia.
  Qed.
  Lemma cell_size_range a c : In (a, c) (cells A) -> 32 <= c < AMAX.
  Proof using W.
    intros H. destruct (w_cell _ _ _ _ W _ _ H) as (sg & K1 & _ & K3 & K4 & K5 & _).
    destruct (w_segok _ _ _ _ W sg K1) as (B1 & B2 & _). lia.
  Qed.

  (** Lists of different classes share no node. *)
  Context (F : Z -> list Z) (fr : list (Z * Z)).
  Hypothesis FR : forall a c, In (a, c) fr -> In (a, c) (cells A).
  Hypothesis FL : flok g m0 F fr.

  Lemma fl_node i z : 0 <= i < 48 -> In z (flist g i :: F i) -> node z.
  Proof using FR FL.
    intros Hi [<-|H]; [apply node_head; auto|].
    apply (fl_in _ _ _ _ FL) in H as (c & H & _); [|auto]. eapply node_cell. eauto.
  Qed.
  Lemma fl_head i z : 0 <= i < 48 -> 0 <= z < 48 -> ~ In (flist g z) (F i).
  Proof using W FR FL.
    intros Hi Hz H. apply (fl_in _ _ _ _ FL) in H as (c & H & _); [|auto].
    apply FR in H. destruct (w_cell _ _ _ _ W _ _ H) as (sg & K1 & _ & K3 & K4 & K5 & _).
    assert (D := w_pool_disj _ _ _ _ W sg K1). unfold disj2, POOL_SIZE, flist in *. cbn [fst snd] in D. lia.
  Qed.
  Lemma fl_disj i j z : 0 <= i < 48 -> 0 <= j < 48 -> i <> j ->
    In z (flist g i :: F i) -> In z (flist g j :: F j) -> False.
  Proof using W FR FL.
    intros Hi Hj D [<-|H] [E|H'].
    - unfold flist in E. lia.
    - eapply fl_head; [| |exact H']; auto.
    - subst z. eapply fl_head; [| |exact H]; auto.
    - apply (fl_in _ _ _ _ FL) in H as (c & H & K); [|auto].
      apply (fl_in _ _ _ _ FL) in H' as (c' & H' & K'); [|auto].
      assert (c = c') by (eapply cell_size; eauto). congruence.
  Qed.
  Lemma fl_nodup_head i : 0 <= i < 48 -> NoDup (flist g i :: F i).
  Proof using W FR FL.
    intros Hi. constructor; [apply fl_head; auto|apply (fl_nodup _ _ _ _ FL); auto].
  Qed.
End L.

Lemma in_mid {T} (w x a : T) L1 L2 : In w (x :: L1 ++ L2) -> In w (x :: L1 ++ a :: L2).
Proof. cbn. rewrite !in_app_iff. cbn. tauto. Qed.

Lemma in_snoc {T} (v x : T) l : In v (l ++ [x]) -> In v (x :: l).
Proof. rewrite in_app_iff. cbn. tauto. Qed.

Definition fupd (F : Z -> list Z) (i : Z) (l : list Z) : Z -> list Z := fun j => if j =? i then l else F j.

(** Removal of a node, at the level of memories: [m1] is reached from [m0] by changing links. *)
Lemma flok_remove g r m0 A F m1 i L1 a c L2 fr' :
  World g r m0 A -> flok g m0 F (frees A) -> 0 <= i < 48 -> F i = L1 ++ a :: L2 ->
  In (a, c) (frees A) -> insert_class c = Ok i ->
  (forall z, node g A z -> z <> a -> nxt m1 z = if z =? prv m0 a then nxt m0 a else nxt m0 z) ->
  (forall z, node g A z -> z <> a -> prv m1 z = if z =? nxt m0 a then prv m0 a else prv m0 z) ->
  (forall j, 0 <= j < 48 -> ld m1 (cpool g + POOL_STATUS + j) 1 =
    if (nxt m0 a =? prv m0 a) && (j =? i) then 0 else ld m0 (cpool g + POOL_STATUS + j) 1) ->
  (forall w d, In (w, d) fr' <-> In (w, d) (frees A) /\ w <> a) ->
  flok g m1 (fupd F i (L1 ++ L2)) fr'.
Proof.
  intros W FL Hi EF Hfr HC HN HP HS Hfr'.
  assert (FR : forall w d, In (w, d) (frees A) -> In (w, d) (cells A)) by (intros; apply frees_in_cells; auto).
  assert (ND := fl_nodup_head g r m0 A W F (frees A) FR FL i Hi). rewrite EF in ND.
  assert (NDa : forall j, 0 <= j < 48 -> j <> i -> ~ In a (flist g j :: F j)).
  { intros j Hj D K. eapply (fl_disj g r m0 A W F (frees A) FR FL j i a); auto.
    right. rewrite EF, in_app_iff. cbn. auto. }
  assert (NA : ~ In a (flist g i :: L1 ++ L2)).
  { clear - ND. rewrite app_comm_cons in *. apply NoDup_remove_2 in ND. exact ND. }
  assert (R := fl_ring _ _ _ _ FL i Hi). rewrite EF, dseg_dsegf in R.
  assert (INC : forall z, In z (flist g i :: L1 ++ L2) -> node g A z).
  { intros z Hz. eapply (fl_node g m0 A F (frees A) FR FL i); [auto|]. rewrite EF. apply in_mid. exact Hz. }
  assert (NEQ : forall z, In z (flist g i :: L1 ++ L2) -> z <> a) by (intros z Hz ->; auto).
  assert (PN : In (prv m0 a) (flist g i :: L1) /\ In (nxt m0 a) (flist g i :: L2)).
  { apply dsegf_app in R as [R1 R2]. apply dsegf_last in R1 as (P & _ & E & K). apply dsegf_first in R2 as (N & E' & _ & K').
    rewrite E, E'. split.
    - destruct K as [[-> ->]|(l & -> & _)]; [left; auto|right; rewrite in_app_iff; cbn; auto].
    - destruct K' as [[-> ->]|(l & -> & _)]; [left; auto|right; cbn; auto]. }
  destruct PN as [PN1 PN2].
  assert (PNI : In (prv m0 a) (flist g i :: L1 ++ L2) /\ In (nxt m0 a) (flist g i :: L1 ++ L2)).
  { clear - PN1 PN2. cbn in *. rewrite !in_app_iff. tauto. }
  destruct PNI as [PI NI].
  destruct (dsegf_remove (nxt m0) (prv m0) (nxt m1) (prv m1) (flist g i) L1 a L2 (prv m0 a) (nxt m0 a)) as (D1 & D2 & D3 & D4 & D5); auto.
  { rewrite HN by auto. rewrite Z.eqb_refl. reflexivity. }
  { rewrite HP by auto. rewrite Z.eqb_refl. reflexivity. }
  { intros u Hu Hne. rewrite HN by auto. destruct (Z.eqb_spec u (prv m0 a)); [contradiction|reflexivity]. }
  { intros u Hu Hne. rewrite HP by auto. destruct (Z.eqb_spec u (nxt m0 a)); [contradiction|reflexivity]. }
  constructor.
  - intros j Hj. unfold fupd. destruct (Z.eqb_spec j i) as [->|E]; apply dseg_dsegf; [exact D1|].
    assert (Rj := fl_ring _ _ _ _ FL j Hj). rewrite dseg_dsegf in Rj.
    assert (FRJ : forall z, In z (flist g j :: F j) -> nxt m1 z = nxt m0 z /\ prv m1 z = prv m0 z).
    { intros z Hz. assert (Nz : node g A z) by (eapply (fl_node g m0 A F (frees A) FR FL j); auto).
      assert (z <> a) by (intros ->; eapply NDa; eauto).
      rewrite HN, HP by auto.
      assert (X : forall w, In w (flist g i :: L1 ++ L2) -> z <> w).
      { intros w Hw ->. eapply (fl_disj g r m0 A W F (frees A) FR FL i j w); auto.
        rewrite EF. apply in_mid. exact Hw. }
      destruct (Z.eqb_spec z (prv m0 a)) as [K|_]; [exfalso; eapply X; [|exact K]; eauto|].
      destruct (Z.eqb_spec z (nxt m0 a)) as [K|_]; [exfalso; eapply X; [|exact K]; eauto|]. auto. }
    eapply dsegf_frame; [| |exact Rj].
    + intros u Hu. apply FRJ. exact Hu.
    + intros v Hv. apply FRJ. apply in_snoc. exact Hv.
  - intros j Hj. unfold fupd. destruct (Z.eqb_spec j i) as [->|E].
    + inversion ND as [|? ? K1 K2]; subst. eapply NoDup_remove_1. exact K2.
    + apply (fl_nodup _ _ _ _ FL); auto.
  - intros j w Hj. unfold fupd. destruct (Z.eqb_spec j i) as [->|E].
    + assert (I := fl_in _ _ _ _ FL i w Hi). rewrite EF in I.
      assert (X : In w (L1 ++ L2) <-> In w (L1 ++ a :: L2) /\ w <> a).
      { split.
        - intros K. split; [rewrite in_app_iff in *; cbn; tauto|]. apply NEQ. right. exact K.
        - rewrite !in_app_iff. cbn. intros [K1 K2]. intuition congruence. }
      rewrite X, I. split.
      * intros ((d & K1 & K2) & K3). exists d. rewrite Hfr'. auto.
      * intros (d & K1 & K2). rewrite Hfr' in K1. split; [exists d|]; tauto.
    + rewrite (fl_in _ _ _ _ FL j w Hj). split.
      * intros (d & K1 & K2). exists d. rewrite Hfr'. split; [|auto]. split; [auto|].
        intros ->. assert (d = c) by (eapply cell_size; eauto). congruence.
      * intros (d & K1 & K2). exists d. rewrite Hfr' in K1. tauto.
  - intros j Hj. rewrite HS by auto. rewrite (fl_stat _ _ _ _ FL j Hj). unfold fupd.
    destruct (Z.eqb_spec j i) as [->|E].
    + rewrite andb_true_r. destruct (Z.eqb_spec (nxt m0 a) (prv m0 a)) as [e|n].
      * apply D4 in e. rewrite e. reflexivity.
      * rewrite EF. destruct (L1 ++ L2) eqn:EL; [exfalso; apply n; apply D4; reflexivity|].
        destruct L1; reflexivity.
    + rewrite andb_false_r. reflexivity.
Qed.

Lemma flok_insert g r m0 A F m1 i L1 a c L2 fr fr' :
  World g r m0 A -> (forall w d, In (w, d) fr -> In (w, d) (cells A)) -> flok g m0 F fr -> 0 <= i < 48 -> F i = L1 ++ L2 ->
  (L1 = [] \/ L2 = []) ->
  In (a, c) (cells A) -> (forall d, ~ In (a, d) fr) -> insert_class c = Ok i ->
  (forall z, node g A z -> nxt m1 z = if z =? a then hd (flist g i) L2 else if z =? last (flist g i :: L1) (flist g i) then a else nxt m0 z) ->
  (forall z, node g A z -> prv m1 z = if z =? a then last (flist g i :: L1) (flist g i) else if z =? hd (flist g i) L2 then a else prv m0 z) ->
  (forall j, 0 <= j < 48 -> ld m1 (cpool g + POOL_STATUS + j) 1 =
    if j =? i then 1 else ld m0 (cpool g + POOL_STATUS + j) 1) ->
  (forall w d, In (w, d) fr' <-> In (w, d) fr \/ (w = a /\ d = c)) ->
  flok g m1 (fupd F i (L1 ++ a :: L2)) fr'.
Proof.
  intros W FR FL Hi EF Hor Hcell Hnew HC HN HP HS Hfr'.
  assert (NA : forall j, 0 <= j < 48 -> ~ In a (flist g j :: F j)).
  { intros j Hj [E|K].
    - destruct (w_cell _ _ _ _ W _ _ Hcell) as (sg & K1 & _ & K3 & K4 & K5 & _).
      assert (D := w_pool_disj _ _ _ _ W sg K1). unfold disj2, POOL_SIZE, flist in *. cbn [fst snd] in D. lia.
    - apply (fl_in _ _ _ _ FL) in K as (d & K & _); [|auto]. eapply Hnew; eauto. }
  assert (ND := fl_nodup_head g r m0 A W F fr FR FL i Hi). rewrite EF in ND.
  assert (ND' : NoDup (flist g i :: L1 ++ a :: L2)).
  { assert (K := NA i Hi). rewrite EF in K. clear - ND K. rewrite app_comm_cons in *.
    apply NoDup_Add with (a := a) (l := (flist g i :: L1) ++ L2); [apply Add_app|]. auto. }
  assert (R := fl_ring _ _ _ _ FL i Hi). rewrite EF, dseg_dsegf in R.
  assert (INC : forall z, In z (flist g i :: L1 ++ L2) -> node g A z).
  { intros z Hz. eapply (fl_node g m0 A F fr FR FL i); [auto|]. rewrite EF. auto. }
  assert (NEQ : forall z, In z (flist g i :: L1 ++ L2) -> z <> a).
  { intros z Hz ->. eapply NA; [exact Hi|]. rewrite EF. exact Hz. }
  assert (LI : In (last (flist g i :: L1) (flist g i)) (flist g i :: L1 ++ L2)).
  { destruct L1 as [|y l _] using rev_ind; [left; auto|]. rewrite app_comm_cons, last_last.
    right. rewrite !in_app_iff. cbn. auto. }
  assert (HI : In (hd (flist g i) L2) (flist g i :: L1 ++ L2)).
  { destruct L2; [left; auto|]. right. rewrite in_app_iff. cbn. auto. }
  assert (Na : node g A a) by (eapply node_cell; eauto).
  assert (Ea : forall z, In z (flist g i :: L1 ++ L2) -> (z =? a) = false).
  { intros z Hz. apply Z.eqb_neq. apply NEQ. exact Hz. }
  assert (D1 : dsegf (nxt m1) (prv m1) (flist g i) (L1 ++ a :: L2) (flist g i)).
  { eapply (dsegf_insert (nxt m0) (prv m0)) with (P := last (flist g i :: L1) (flist g i)) (N := hd (flist g i) L2); auto.
    - rewrite HN by auto. rewrite Ea by auto. rewrite Z.eqb_refl. reflexivity.
    - rewrite HP by auto. rewrite Z.eqb_refl. reflexivity.
    - rewrite HN by auto. rewrite Z.eqb_refl. reflexivity.
    - rewrite HP by auto. rewrite Ea by auto. rewrite Z.eqb_refl. reflexivity.
    - intros u Hu Hne. rewrite HN by auto. rewrite Ea by auto. apply Z.eqb_neq in Hne. rewrite Hne. reflexivity.
    - intros u Hu Hne. rewrite HP by auto. rewrite Ea by auto. apply Z.eqb_neq in Hne. rewrite Hne. reflexivity. }
  constructor.
  - intros j Hj. unfold fupd. destruct (Z.eqb_spec j i) as [->|E]; apply dseg_dsegf; [exact D1|].
    assert (Rj := fl_ring _ _ _ _ FL j Hj). rewrite dseg_dsegf in Rj.
    assert (FRJ : forall z, In z (flist g j :: F j) -> nxt m1 z = nxt m0 z /\ prv m1 z = prv m0 z).
    { intros z Hz. assert (Nz : node g A z) by (eapply (fl_node g m0 A F fr FR FL j); auto).
      assert (z <> a) by (intros ->; eapply NA; eauto).
      rewrite HN, HP by auto.
      assert (X : forall w, In w (flist g i :: L1 ++ L2) -> z <> w).
      { intros w Hw ->. eapply (fl_disj g r m0 A W F fr FR FL i j w); auto. rewrite EF. auto. }
      destruct (Z.eqb_spec z a) as [eq1|_]; [contradiction|].
      destruct (Z.eqb_spec z (last (flist g i :: L1) (flist g i))) as [K|_]; [exfalso; eapply X; [|exact K]; eauto|].
      destruct (Z.eqb_spec z (hd (flist g i) L2)) as [K|_]; [exfalso; eapply X; [|exact K]; eauto|]. auto. }
    eapply dsegf_frame; [| |exact Rj].
    + intros u Hu. apply FRJ. exact Hu.
    + intros v Hv. apply FRJ. apply in_snoc. exact Hv.
  - intros j Hj. unfold fupd. destruct (Z.eqb_spec j i) as [->|E].
    + inversion ND'; auto.
    + apply (fl_nodup _ _ _ _ FL); auto.
  - intros j w Hj. unfold fupd. destruct (Z.eqb_spec j i) as [->|E].
    + assert (I := fl_in _ _ _ _ FL i w Hi). rewrite EF in I.
      assert (X : In w (L1 ++ a :: L2) <-> In w (L1 ++ L2) \/ w = a).
      { rewrite !in_app_iff. cbn. intuition congruence. }
      rewrite X, I. split.
      * intros [(d & K1 & K2)| ->]; [exists d|exists c]; rewrite Hfr'; auto.
      * intros (d & K1 & K2). rewrite Hfr' in K1. destruct K1 as [K1|[-> ->]]; [left; exists d; auto|right; auto].
    + rewrite (fl_in _ _ _ _ FL j w Hj). split.
      * intros (d & K1 & K2). exists d. rewrite Hfr'. auto.
      * intros (d & K1 & K2). rewrite Hfr' in K1. destruct K1 as [K1|[-> ->]]; [exists d; auto|congruence].
  - intros j Hj. rewrite HS by auto. unfold fupd. destruct (Z.eqb_spec j i) as [->|E].
    + destruct L1; reflexivity.
    + apply (fl_stat _ _ _ _ FL j Hj).
Qed.
