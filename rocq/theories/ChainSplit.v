(** Header set-up and splitting. *)
From Verif Require Import Word Res Mem SizeClassModel SizeClassProofs ChainModel Wp ChainInv ChainZip ChainList ChainFl ChainPrim.
From Coq Require Import ZArith List Bool Lia.
Import ListNotations.
Open Scope Z_scope.

Lemma i_type_mk t s m : 0 <= t < 4 -> 0 <= s < 2 -> i_type (mk_info t s m) = t.
Proof. unfold i_type, mk_info. lia. Qed.
Lemma i_state_mk t s m : 0 <= t < 4 -> 0 <= s < 2 -> i_state (mk_info t s m) = s.
Proof. unfold i_state, mk_info. lia. Qed.
Lemma i_magic_mk t s m : 0 <= t < 4 -> 0 <= s < 2 -> i_magic (mk_info t s m) = m.
Proof. unfold i_magic, mk_info. lia. Qed.
Lemma mk_info_range t s m : 0 <= t < 4 -> 0 <= s < 2 -> 0 <= m < 32 -> 0 <= mk_info t s m < 256.
Proof. unfold mk_info. lia. Qed.
Lemma i_type_range b : 0 <= i_type b < 4. Proof. unfold i_type. lia. Qed.
Lemma i_state_range b : 0 <= i_state b < 2. Proof. unfold i_state. lia. Qed.
Lemma i_magic_range b : 0 <= b < 256 -> 0 <= i_magic b < 32. Proof. unfold i_magic. lia. Qed.

(** The three writes of the info byte, whatever was there. *)
Lemma info_writes (m : mem) v t s2 mg (Q : unit -> st -> Prop) s :
  0 <= t < 4 -> 0 <= s2 < 2 -> 0 <= mg < 32 -> accb (srng s) v 1 = true -> 
  (forall m', chg (smem s) m' (fun x => v <= x < v + 1) -> ld m' v 1 = mk_info t s2 mg -> Q tt (set_mem s m')) ->
  wp (set_state v s2 ;;; set_type v t ;;; set_magic v mg) s Q.
Proof.
  intros Ht Hs Hm AC H. unfold set_state, set_type, set_magic.
  assert (RT := i_type_range). assert (RS := i_state_range). assert (RM := i_magic_range).
  assert (LR := ld1_range (smem s) v).
  apply wp_bind. apply wp_bind. apply wp_load; [exact AC|]. apply wp_store; [exact AC|].
  set (b0 := ld (smem s) v 1) in *.
  set (b1 := mk_info (i_type b0) s2 (i_magic b0)).
  assert (R1 : 0 <= b1 < 256) by (apply mk_info_range; auto).
  apply wp_bind. apply wp_bind. apply wp_load; [exact AC|]. rewrite set_mem_eq, ld1_same by exact R1.
  apply wp_store; [exact AC|]. rewrite set_mem_eq, set_mem_mem.
  set (b2 := mk_info t (i_state b1) (i_magic b1)).
  assert (R2 : 0 <= b2 < 256) by (apply mk_info_range; auto).
  apply wp_bind. apply wp_load; [exact AC|]. rewrite set_mem_eq, ld1_same by exact R2.
  apply wp_store; [exact AC|]. rewrite set_mem_eq, set_mem_mem.
  apply H.
  - repeat (apply chg_sto; [|intros x Hx; cbn in Hx; lia]). apply chg_refl.
  - rewrite ld1_same.
    + unfold b2, b1. rewrite !i_type_mk, !i_state_mk by (auto; rewrite ?i_state_mk; auto). reflexivity.
    + apply mk_info_range; auto.
Qed.

Lemma setup_chunk_spec ptr size prev pv s (Q : Z -> st -> Prop) :
  accb (srng s) ptr 16 = true -> 0 <= size < AMAX -> 0 <= pv < AMAX -> 0 <= prev -> ptr < W64 ->
  (prev = 0 \/ prev = ptr -> pv = 0) -> (prev <> 0 -> prev <> ptr -> prev = ptr - pv) ->
  (forall m', chg (smem s) m' (fun x => ptr <= x < ptr + 16) -> hdr m' ptr size pv 133 -> Q (ptr + 15) (set_mem s m')) ->
  wp (setup_chunk ptr size prev) s Q.
Proof.
  intros AC Hs Hp Hprev Hptr E1 E2 H.
  assert (AC1 : forall o n, 0 <= o -> o + n <= 16 -> accb (srng s) (ptr + o) n = true).
  { intros o n H1 H2. eapply accb_sub; [exact AC|lia|lia]. }
  unfold setup_chunk. apply wp_bind. apply wp_store; [eapply accb_sub; [exact AC|lia|cbn; lia]|].
  apply wp_bind. apply wp_store; [cbn [srng set_mem]; apply AC1; cbn; lia|]. rewrite set_mem_eq, set_mem_mem.
  set (m1 := sto (sto (smem s) ptr 7 size) (ptr + 7) 1 ptr).
  assert (C1 : chg (smem s) m1 (fun x => ptr <= x < ptr + 16)).
  { unfold m1. repeat (apply chg_sto; [|intros x Hx; cbn in Hx; lia]). apply chg_refl. }
  assert (L1 : ld m1 ptr 7 = size).
  { unfold m1. rewrite ld_sto_other by (cbn; lia). apply ld7_same. exact Hs. }
  assert (ASSOC : forall rest : M Z,
    wp (bind (set_state (ptr + 15) S_ALLOC ;;; set_type (ptr + 15) T_LARGE ;;; set_magic (ptr + 15) MAGIC) (fun _ => rest)) (set_mem s m1) Q ->
    wp (set_state (ptr + 15) S_ALLOC ;;; set_type (ptr + 15) T_LARGE ;;; set_magic (ptr + 15) MAGIC ;;; rest) (set_mem s m1) Q).
  { intros rest K. apply wp_bind_inv in K. apply wp_bind_inv in K. apply wp_bind.
    eapply wp_mono; [exact K|]. cbv beta. intros _ s1 K1. apply wp_bind_inv in K1. apply wp_bind.
    eapply wp_mono; [exact K1|]. cbv beta. intros _ s2 K2. apply wp_bind. exact K2. }
  apply ASSOC. apply wp_bind. apply (info_writes m1); unfold T_LARGE, S_ALLOC, MAGIC; try lia; [apply AC1; lia|].
  rewrite set_mem_eq. intros m2 C2 L2. rewrite set_mem_mem.
  change (mk_info 1 1 16) with 133 in L2.
  assert (FINAL : wp (bind (set_prevsize ptr pv) (fun _ => ret (vchunk_of_large ptr))) (set_mem s m2) Q).
  { apply wp_bind. apply wp_store; [apply AC1; cbn; lia|]. rewrite set_mem_eq, set_mem_mem.
    apply wp_ret. apply H.
    - apply chg_sto; [|intros x Hx; cbn in Hx; lia]. eapply chg_trans; [exact C1|].
      eapply chg_weaken; [exact C2|]. intros x Hx; cbv beta in Hx; lia.
    - unfold hdr. rewrite ld_sto_other by (cbn; lia). rewrite ld7_same by exact Hp.
      rewrite ld_sto_other by (cbn; lia).
      split; [|split; [reflexivity|exact L2]].
      rewrite (chg_ld m1 m2 _ _ _ C2); [exact L1|]. intros x Hx. cbn in Hx. lia. }
  destruct ((prev =? 0) || (prev =? ptr)) eqn:E.
  - assert (pv = 0) by (apply E1; lia). subst pv. exact FINAL.
  - replace (sub64 ptr prev) with pv; [exact FINAL|].
    rewrite E2 by lia. rewrite sub64_small by lia. lia.
Qed.

Definition nofr (l : list chunk) : Prop := Forall (fun ck => snd ck <> Fr) l.

Lemma nofr_frees l : forall a, nofr l -> frees_from a l = [].
Proof.
  induction l as [|[c k] l IH]; intros a H; cbn [frees_from]; [reflexivity|].
  inversion H as [|? ? H1 H2]; subst. cbn in H1. rewrite IH by exact H2. destruct k; [congruence|reflexivity|reflexivity].
Qed.

Lemma frees_nofr S1 b z l1 mid mid' l2 S2 : nofr mid -> nofr mid' -> tot mid' = tot mid ->
  frees (S1 ++ mkSeg b z (l1 ++ mid' ++ l2) :: S2) = frees (S1 ++ mkSeg b z (l1 ++ mid ++ l2) :: S2).
Proof.
  intros N N' E. rewrite !frees_mid, !frees_from_app, (nofr_frees mid), (nofr_frees mid') by auto. rewrite E. reflexivity.
Qed.

Lemma flok_frame g m m' P F fr : flok g m F fr -> chg m m' P ->
  (forall x, P x -> x < cpool g \/ cpool g + POOL_SIZE <= x) ->
  (forall x w d, P x -> In (w, d) fr -> x < w + 16 \/ w + 32 <= x) ->
  flok g m' F fr.
Proof.
  intros FL HC HP HF.
  assert (NH : forall i, 0 <= i < 48 -> nxt m' (flist g i) = nxt m (flist g i) /\ prv m' (flist g i) = prv m (flist g i)).
  { intros i Hi. unfold nxt, prv, flist. unfold POOL_SIZE in HP.
    split; apply (chg_ld m m' P _ _ HC); intros x Hx Px; specialize (HP x Px); lia. }
  assert (NC : forall w d, In (w, d) fr -> nxt m' w = nxt m w /\ prv m' w = prv m w).
  { intros w d Hw. unfold nxt, prv.
    split; apply (chg_ld m m' P _ _ HC); intros x Hx Px; specialize (HF x w d Px Hw); lia. }
  constructor.
  - intros i Hi. assert (R := fl_ring _ _ _ _ FL i Hi). rewrite dseg_dsegf in *.
    assert (K : forall z, In z (flist g i :: F i) -> nxt m' z = nxt m z /\ prv m' z = prv m z).
    { intros z [<-|Hz]; [apply NH; auto|]. apply (fl_in _ _ _ _ FL) in Hz as (d & Hd & _); [|auto]. eapply NC; eauto. }
    eapply dsegf_frame; [| |exact R].
    + intros u Hu. apply K. exact Hu.
    + intros v Hv. apply K. apply in_snoc. exact Hv.
  - apply (fl_nodup _ _ _ _ FL).
  - apply (fl_in _ _ _ _ FL).
  - intros i Hi. rewrite <- (fl_stat _ _ _ _ FL i Hi). unfold POOL_SIZE, POOL_STATUS in *.
    apply (chg_ld m m' P _ _ HC); intros x Hx Px; specialize (HP x Px); lia.
Qed.

Lemma inv_renof g s F S1 b z l1 mid mid' l2 S2 a m' :
  Inv g s (S1 ++ mkSeg b z (l1 ++ mid ++ l2) :: S2) F -> a = b + 32 + tot l1 -> mid <> [] ->
  nofr mid -> nofr mid' -> tot mid' = tot mid ->
  cks m' a (lastsz 0 l1) mid' ->
  chg (smem s) m' (fun x => a <= x < a + tot mid \/ a + tot mid + 8 <= x < a + tot mid + 15) ->
  ld m' (a + tot mid + 8) 7 = lastsz (lastsz 0 l1) mid' ->
  Inv g (set_mem s m') (S1 ++ mkSeg b z (l1 ++ mid' ++ l2) :: S2) F.
Proof.
  intros [W FL HB] Ea Hne N N' Et HC HG HL.
  assert (HS : segok g (smem s) (mkSeg b z (l1 ++ mid ++ l2))).
  { eapply w_segok; [exact W|]. rewrite in_app_iff. right. left. reflexivity. }
  assert (PD := w_pool_disj _ _ _ _ W (mkSeg b z (l1 ++ mid ++ l2)) ltac:(rewrite in_app_iff; right; left; reflexivity)).
  unfold disj2 in PD. cbn [fst snd gbase gsize] in PD.
  assert (B : b + 32 <= a /\ a + tot mid + 16 <= b + z /\ 0 <= tot mid).
  { destruct HS as (H1 & H2 & H3 & H4 & H5 & H6 & H7). cbn [gbase gsize gchunks] in *.
    rewrite !tot_app in H3. rewrite !cks_app in H6. destruct H6 as (C1 & C2 & C3).
    assert (T1 := cks_tot _ _ _ _ C1). assert (T2 := cks_tot _ _ _ _ C2). assert (T3 := cks_tot _ _ _ _ C3). lia. }
  constructor; cbn [smem srng sbase set_mem].
  - eapply world_replace; eauto.
  - rewrite (frees_nofr S1 b z l1 mid mid' l2 S2) by auto.
    eapply flok_frame; [exact FL|exact HG| |].
    + intros x Hx. cbv beta in Hx. lia.
    + intros x w d Hx Hw. cbv beta in Hx.
      assert (32 <= d) by (eapply cell_size_range; [exact W|apply frees_in_cells; exact Hw]).
      apply (frees_split S1 b z l1 mid l2 S2 a) in Hw; [|exact Ea].
      rewrite (nofr_frees mid a N) in Hw. destruct Hw as [[]|Hw].
      assert (O := frees_outside g _ _ S1 b z l1 mid l2 S2 a w d W Ea Hne Hw). lia.
  - eapply base_replace. exact HB.
Qed.

(** Previous chunk *)
Lemma world_prev g r m S1 b z l1 c k l2 S2 :
  World g r m (S1 ++ mkSeg b z (l1 ++ (c, k) :: l2) :: S2) ->
  (l1 = [] /\ lastsz 0 l1 = 0) \/ exists l0 p kp, l1 = l0 ++ [(p, kp)] /\ lastsz 0 l1 = p /\ 32 <= p /\ tot l1 = tot l0 + p /\ 0 <= tot l0.
Proof.
  intros W. destruct l1 as [|[p kp] l0 _] using rev_ind; [left; auto|right].
  exists l0, p, kp. rewrite lastsz_app, tot_app. cbn [lastsz tot].
  assert (HS : segok g m (mkSeg b z ((l0 ++ [(p, kp)]) ++ (c, k) :: l2))).
  { eapply w_segok; [exact W|]. rewrite in_app_iff. right. left. reflexivity. }
  destruct HS as (_ & _ & _ & _ & _ & H6 & _). cbn [gchunks] in H6. rewrite cks_app in H6. destruct H6 as (C & _).
  rewrite cks_app in C. destruct C as (C0 & C1). cbn [cks] in C1. assert (T := cks_tot _ _ _ _ C0).
  repeat split; lia.
Qed.

Lemma wp_get_ptr_large s v inf (Q : Z -> st -> Prop) : accb (srng s) v 1 = true -> ld (smem s) v 1 = inf ->
  i_type inf = 1 -> Q (v - 15) s -> wp (get_ptr v) s Q.
Proof.
  intros AC E Ei H. unfold get_ptr, get_type. apply wp_bind. apply wp_bind. apply wp_load; [exact AC|].
  rewrite E. apply wp_ret. rewrite Ei. cbn [Z.eqb T_LARGE Pos.eqb]. apply wp_ret. unfold large_of, SZ_LARGE.
  replace (v + 1 - 16) with (v - 15) by lia. exact H.
Qed.

(** Rounding of sizes *)
Lemma calc_small n : 0 <= n < S63 - 16 -> calc_chunk_size n = Z.max 32 (n + 16).
Proof.
  intros H. unfold calc_chunk_size. rewrite S63_val in H. rewrite add64_small by (rewrite W64_val; lia). cbv zeta.
  destruct (Z.leb_spec (n + 16) 32); lia.
Qed.
Lemma align16_small s : 0 <= s < W64 - 16 -> s <= align16 s < s + 16 /\ align16 s mod 16 = 0.
Proof. intros H. unfold align16. rewrite w64_small by lia. lia. Qed.

Lemma split_spec g s F S1 b z l1 c l2 S2 a n :
  Inv g s (S1 ++ mkSeg b z (l1 ++ (c, Lk) :: l2) :: S2) F -> a = b + 32 + tot l1 ->
  1 <= n < S63 - 16 -> calc_chunk_size n <= c ->
  wp (split_free_bloc (a + 15) n) s (fun vr s' =>
    fst vr = a + 15 /\
    ((snd vr = 0 /\ s' = s /\ c < align16 (calc_chunk_size n) + 32) \/
     (let size := align16 (calc_chunk_size n) in
      snd vr = a + size + 15 /\ size + 32 <= c /\
      Inv g s' (S1 ++ mkSeg b z (l1 ++ (size, Lk) :: (c - size, Lk) :: l2) :: S2) F /\ memonly s s' /\
      chg (smem s) (smem s') (scratch g (S1 ++ mkSeg b z (l1 ++ (c, Lk) :: l2) :: S2))))).
Proof.
  intros IV Ea Hn Hle. assert (IV' := IV). destruct IV' as [W FL HB].
  assert (HC := world_chunk _ _ _ _ _ _ _ _ _ _ _ _ W Ea).
  destruct HC as (H1 & H2 & (H3 & H4 & H5) & H6 & H7 & H8 & H9 & H10 & H11 & H12 & H13 & H14 & H15 & H16).
  assert (HP := world_prev _ _ _ _ _ _ _ _ _ _ _ W).
  assert (Ecs := calc_small n ltac:(lia)). rewrite Ecs in *.
  set (cs := Z.max 32 (n + 16)) in *.
  assert (BW := W64_val). assert (BS := S63_val).
  assert (Hal : cs <= align16 cs < cs + 16 /\ align16 cs mod 16 = 0) by (apply align16_small; lia).
  unfold split_free_bloc. rewrite Ecs. fold cs. set (size := align16 cs) in *.
  assert (Hsz : 32 <= size <= c) by lia.
  assert (ACa : accb (srng s) a c = true) by (eapply accb_intro; [exact H11|lia|lia]).
  assert (AC15 : accb (srng s) (a + 15) 1 = true) by (eapply accb_sub; [exact ACa|lia|lia]).
  apply wp_bind. unfold vsize, large_of, SZ_LARGE. replace (a + 15 + 1 - 16) with a by lia.
  apply wp_load; [eapply accb_sub; [exact ACa|lia|cbn; lia]|]. rewrite H3.
  rewrite sub64_small by lia. cbv zeta. unfold MIN_SIZE.
  destruct (Z.leb_spec 32 (c - size)) as [L|L].
  2:{ apply wp_ret. cbn [fst snd]. split; [reflexivity|]. left. split; [reflexivity|]. split; [reflexivity|lia]. }
  apply wp_bind. eapply wp_get_ptr_large; [exact AC15|exact H5|reflexivity|].
  replace (a + 15 - 15) with a by lia. rewrite add64_small by lia.
  apply wp_bind. apply (setup_chunk_spec (a + size) (c - size) a size); try lia; [eapply accb_sub; [exact ACa|lia|lia]|].
  intros m1 C1 Hd1. set (s1 := set_mem s m1).
  assert (Hd1' : hdr m1 a c (lastsz 0 l1) 133).
  { eapply hdr_frame; [exact C1| |]; [intros x Hx Hx'; cbv beta in Hx'; lia|]. unfold hdr. auto. }
  destruct Hd1' as (D1 & D2 & D3).
  apply wp_bind. eapply wp_get_ptr_large; [exact AC15|exact D3|reflexivity|].
  replace (a + 15 - 15) with a by lia.
  apply wp_bind. unfold vprevsize, large_of, SZ_LARGE. replace (a + 15 + 1 - 16) with a by lia.
  apply wp_load; [eapply accb_sub; [exact ACa|lia|cbn; lia]|]. unfold s1 at 1. rewrite set_mem_eq, D2.
  assert (PVL : 0 <= lastsz 0 l1 <= tot l1) by (destruct HP as [(-> & K)|(l0 & p & kp & -> & K1 & K2 & K3 & K4)]; rewrite ?K, ?K1; cbn [tot]; lia).
  assert (PV0 : lastsz 0 l1 = 0 \/ 32 <= lastsz 0 l1 ) by (destruct HP as [(_ & K)|(l0 & p & kp & _ & K1 & K2 & _)]; lia).
  rewrite sub64_small by lia.
  apply wp_bind. apply (setup_chunk_spec a size (a - lastsz 0 l1) (lastsz 0 l1)); try lia; [eapply accb_sub; [exact ACa|lia|lia]|].
  unfold s1. rewrite set_mem_eq. intros m2 C2 Hd2. rewrite set_mem_mem.
  assert (Hd2r : hdr m2 (a + size) (c - size) size 133).
  { eapply hdr_frame; [exact C2| |exact Hd1]; intros x Hx Hx'; cbv beta in Hx'; lia. }
  destruct Hd2r as (R1 & R2 & R3).
  apply wp_bind. unfold next_chunk, vsize, large_of, SZ_LARGE.
  apply wp_bind. apply wp_load; [eapply accb_sub; [exact ACa|cbn; lia|cbn; lia]|].
  replace (a + size + 15 + 1 - 16) with (a + size) by lia. rewrite set_mem_eq, R1.
  apply wp_ret. rewrite add64_small by lia.
  replace (a + size + 15 + (c - size) + 1 - 16) with (a + c) by lia.
  apply wp_bind. apply wp_store; [eapply accb_intro; [exact H11|lia|cbn; lia]|]. rewrite set_mem_eq, set_mem_mem.
  apply wp_ret. cbn [fst snd]. split; [reflexivity|]. right. split; [reflexivity|]. split; [lia|].
  set (m3 := sto m2 (a + c + 8) 7 (c - size)).
  assert (C3 : chg (smem s) m3 (fun x => a <= x < a + (c + 0) \/ a + (c + 0) + 8 <= x < a + (c + 0) + 15)).
  { unfold m3. apply chg_sto; [|intros x Hx; cbn in Hx; lia].
    eapply chg_trans2; [exact C1|exact C2| |]; intros x Hx; cbv beta in Hx; lia. }
  split; [|split; [apply memonly_set|]].
  - eapply (inv_renof g s F S1 b z l1 [(c, Lk)] [(size, Lk); (c - size, Lk)] l2 S2 a m3); auto.
    + discriminate.
    + repeat constructor; discriminate.
    + repeat constructor; discriminate.
    + cbn [tot]. lia.
    + cbn [cks kok]. split; [lia|]. split; [lia|]. split.
      { destruct Hd2 as (K1 & K2 & K3). unfold hdr, m3. cbn [info_of]. rewrite !ld_sto_other by (cbn; lia). auto. }
      split; [exact I|]. split; [lia|]. split; [lia|]. split; [|auto].
      unfold hdr, m3. cbn [info_of]. rewrite !ld_sto_other by (cbn; lia). auto.
    + cbn [lastsz tot]. unfold m3. replace (a + (c + 0) + 8) with (a + c + 8) by lia. apply ld7_same. lia.
  - cbn [smem set_mem]. eapply chg_weaken; [exact C3|]. intros x Hx. cbv beta in Hx.
    eapply (stretch_scratch g (srng s) (smem s) S1 b z l1 [(c, Lk)] l2 S2 a); [exact W|exact Ea|repeat constructor|cbn [tot]; lia].
Qed.
