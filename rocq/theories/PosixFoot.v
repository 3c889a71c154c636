(** Memory mapped by the whole allocator, compared with the blocks in use (C66). *)
From Verif Require Import Word Res Mem SizeClassModel ChainModel ChainInv ChainSpec ChainProps ChainTrace ChainWalk ChainFit FootSpec ChainFoot RegionModel LightModel LightSpec LightProofs
  PosixModel PosixSpec PosixInv PosixMid PosixRun PosixStep PosixMore PosixQueue ConcModel ConcSpec ConcInv ConcReach.
From Coq Require Import ZArith List Bool Lia Permutation.
Import ListNotations.
Open Scope Z_scope.

Lemma total_incl : forall l l' : list (Z * Z), NoDup l -> incl l l' -> (forall x, In x l' -> 0 <= snd x) -> ChainSpec.total l <= ChainSpec.total l'.
Proof.
  induction l as [|x l IH]; intros l' ND IN P.
  - clear IN. unfold ChainSpec.total. induction l' as [|x l' IH]; [cbn; lia|]. pose proof (P x (or_introl eq_refl)) as K. specialize (IH (fun z Hz => P z (or_intror Hz))).
    cbn [map fold_right] in *. lia.
  - apply NoDup_cons_iff in ND as (N1 & N2). destruct (in_split x l' (IN x (or_introl eq_refl))) as (a & b & ->).
    assert (K : ChainSpec.total l <= ChainSpec.total (a ++ b)).
    { apply IH; [exact N2| |].
      - intros z Hz. pose proof (IN z (or_intror Hz)) as K. apply in_app_iff in K as [K|[K|K]]; apply in_app_iff; [left; exact K|subst z; contradiction|right; exact K].
      - intros z Hz. apply P. apply in_app_iff in Hz as [K|K]; apply in_app_iff; [left; exact K|right; right; exact K]. }
    rewrite ChainWalk.total_app in *. unfold ChainSpec.total in *. cbn [map fold_right]. lia.
Qed.

Lemma total_same : forall l, LightSpec.total l = ChainSpec.total l.
Proof. induction l as [|[b n] l IH]; [reflexivity|]. unfold ChainSpec.total in *. cbn [LightSpec.total map fold_right snd]. lia. Qed.

Lemma tl_oat (O : list obs) o : In o (tl O) -> exists i, i <> 0%nat /\ oat O i = o.
Proof. destruct O as [|o0 O]; intros H; [destruct H|]. destruct (In_nth _ _ obs0 H) as (n & _ & E). exists (S n). split; [discriminate|exact E]. Qed.
Lemma oat_tl (O : list obs) i : i <> 0%nat -> In (oat O i) (tl O) \/ oat O i = obs0.
Proof.
  intros N. destruct i as [|n]; [congruence|]. destruct O as [|o0 O]; [right; unfold oat; destruct n; reflexivity|].
  unfold oat. cbn [nth tl]. destruct (nth_in_or_default n O obs0) as [H|H]; auto.
Qed.

Section Foot.
  Variables (e : env) (y : sys) (O : list obs).
  Hypothesis S : SInv e y O.

  Lemma tl_chain o : In o (tl O) -> o = obs0 \/ exists i k, i <> 0%nat /\ chain y i = Some k /\ oat O i = o /\ csrc (kg k) = true /\ cmerge (kg k) = true /\ reach (kg k) (set_mem (kst k) (ymem y)) o.
  Proof.
    intros H. pose proof (sinv_cor _ _ _ S) as Co. destruct (tl_oat O o H) as (i & N & E). destruct (chain y i) as [k|] eqn:Hk.
    - right. exists i, k. destruct (kg_cases _ _ _ _ _ Co Hk) as (_ & M & C & _). split; [exact N|]. split; [exact Hk|]. split; [exact E|]. split; [exact (C N)|]. split; [exact M|].
      rewrite <- E. exact (c_reach _ _ _ Co i k Hk).
    - left. rewrite <- E. exact (c_dead _ _ _ Co i Hk).
  Qed.
  Lemma seg_weights x : In x (thread_segs O) -> snd x <= weights (occ_in (ymem y) x).
  Proof.
    intros H. apply in_flat_map in H as (o & H1 & H2). destruct (tl_chain o H1) as [->|(i & k & _ & _ & _ & C & M & R)]; [destruct H2|].
    destruct (reach_good _ _ _ R) as (A & F & G). exact (seg_weight _ _ _ _ _ G C M x H2).
  Qed.
  Lemma all_lost : exists lk, lost (ymem y) (thread_segs O) (thread_blocks O) lk /\ band lk.
  Proof.
    unfold thread_segs, thread_blocks. pose proof tl_chain as T. revert T. generalize (tl O). intros l. induction l as [|o l IH]; intros T.
    - exists []. split; [apply lost_nil|intros w c []].
    - destruct IH as (k2 & L2 & B2); [intros o' H'; apply T; right; exact H'|].
      assert (K : exists k1, lost (ymem y) (segs o) (blocks o) k1 /\ band k1).
      { destruct (T o (or_introl eq_refl)) as [->|(i & k & _ & _ & _ & _ & _ & R)]; [exists []; split; [apply lost_nil|intros w c []]|]. exact (chain_lost _ _ _ R). }
      destruct K as (k1 & L1 & B1). exists (k1 ++ k2). split; [exact (lost_app _ _ _ _ _ _ _ L1 L2)|exact (band_app _ _ B1 B2)].
  Qed.
  Lemma all_band lk : lost (ymem y) (thread_segs O) (thread_blocks O) lk -> band lk.
  Proof. intros H. destruct all_lost as (k0 & L0 & B0). exact (band_perm _ _ (lost_uniq _ _ _ _ _ L0 H) B0). Qed.

  Lemma mapped_bound lk : 0 <= keep_max (elg e) -> 0 <= keep_mem (elg e) -> lost (ymem y) (thread_segs O) (thread_blocks O) lk ->
    ChainSpec.total (lmap (ysrc y)) <= keep_mem (elg e) + keep_max (elg e) + footprint (ymem y) (thread_blocks O) + 2097152 * Z.of_nat (length lk).
  Proof.
    intros K1 K2 HL. pose proof S as (out & C & L & M). pose proof (m_light _ _ _ _ _ _ _ _ _ M) as LI. pose proof (m_cap _ _ _ _ _ _ _ _ _ M K1) as CAP.
    pose proof (ChainWalk.total_perm _ _ (li_perm _ _ _ LI)) as T. cbn [source lset_mem lmap] in T. rewrite ChainWalk.total_app in T.
    pose proof (li_sz _ _ _ LI) as SZ. cbn [source lset_mem lsz] in SZ. rewrite total_same in SZ.
    pose proof (segs_weight (ymem y) (thread_segs O) seg_weights) as B. rewrite (lost_weight _ _ _ _ HL (all_band lk HL)) in B.
    assert (ND : NoDup out) by (pose proof (li_nd _ _ _ LI) as N; destruct (nodup_app_inv _ _ _ N) as (_ & N2 & _); exact N2).
    assert (IN : incl out (thread_segs O)).
    { intros x Hx. apply (m_out _ _ _ _ _ _ _ _ _ M) in Hx as [(j & k & N & Hk & Hs)|[[]|[]]]. destruct (oat_tl O j N) as [K|K].
      - apply in_flat_map. exists (oat O j). auto.
      - rewrite K in Hs. destruct Hs. }
    assert (NN : forall x, In x (thread_segs O) -> 0 <= snd x).
    { intros x Hx. apply in_flat_map in Hx as (o & H1 & H2). destruct (tl_chain o H1) as [->|(i & k & Ni & Hk & E & _)]; [destruct H2|].
      assert (Ho : In x out) by (apply (m_out _ _ _ _ _ _ _ _ _ M); left; exists i, k; rewrite E; auto).
      destruct (mid_page _ _ _ _ _ _ _ _ _ M _ Ho) as (_ & _ & (_ & Q & _)). lia. }
    pose proof (total_incl out (thread_segs O) ND IN NN) as TI. lia.
  Qed.

  Lemma block_place b : In b (thread_blocks O) -> exists i, i <> 0%nat /\ (holds y O i b \/ In b (pend (oat O i))).
  Proof.
    intros H. apply in_flat_map in H as (o & H1 & H2). destruct (tl_chain o H1) as [->|(i & k & Ni & Hk & E & _)]; [destruct H2|]. exists i. split; [exact Ni|].
    rewrite <- E in H2. apply in_app_iff in H2 as [H2|H2]; [left|right; exact H2]. exact (live_held _ _ _ _ _ _ S Hk Ni H2).
  Qed.
  Lemma place_block b i : i <> 0%nat -> holds y O i b \/ In b (pend (oat O i)) -> In b (thread_blocks O).
  Proof.
    intros Ni H. apply in_flat_map. exists (oat O i). assert (K : In b (blocks (oat O i))) by (apply in_app_iff; destruct H as [(_ & H & _)|H]; auto).
    split; [|exact K]. destruct (oat_tl O i Ni) as [Q|Q]; [exact Q|]. rewrite Q in K. destruct K.
  Qed.

  (** A plain block in use accounts for the size asked, the size of a segment and the threshold of realloc. *)
  Lemma plain_weight i b : holds y O i b -> i <> 0%nat -> bd b <= 1 -> 0 <= ethr e -> weight (occ (ymem y) (bp b)) <= bn b + 2097152 + ethr e + 63.
  Proof.
    intros ((k & Hk) & Hl & _) Ni Hd Ht. pose proof (sinv_cor _ _ _ S) as Co. pose proof (c_reach _ _ _ Co i k Hk) as R. destruct (c_cfg _ _ _ Co i k Hk Ni) as (CG & _).
    assert (Hb : In b (blocks (oat O i))) by (apply in_app_iff; left; exact Hl).
    destruct (blocks_inside _ _ _ R b Hb) as (u & x & z & U & U1 & U2 & _).
    destruct (block_occ _ _ _ R b u Hb U) as (w & c & x' & z' & Q1 & _ & _ & _ & _ & Q2 & _ & Q3 & _). cbn [smem set_mem] in Q1. rewrite Q1. unfold weight. cbn [snd]. specialize (Q3 Hd).
    assert (UB : u < bn b + 2097152 + ethr e).
    { destruct (live_bound _ _ _ R b u Hl U) as [(B1 & _ & B3 & _)|(_ & B & _)].
      - destruct (Z.le_gt_cases (bn b) 1048560) as [Q|Q]; [specialize (B1 Hd (or_intror Q)); lia|]. assert (SC : csrc (kg k) = true) by (rewrite CG; reflexivity). specialize (B3 Hd SC ltac:(lia)). lia.
      - rewrite CG in B. cbn [thread_cfg cthresh] in B. lia. }
    lia.
  Qed.
End Foot.

Lemma seq_mapped e y O lk : sreach e y O -> 0 <= keep_max (elg e) -> 0 <= keep_mem (elg e) -> lost (ymem y) (thread_segs O) (thread_blocks O) lk ->
  ChainSpec.total (lmap (ysrc y)) <= keep_mem (elg e) + keep_max (elg e) + footprint (ymem y) (thread_blocks O) + 2097152 * Z.of_nat (length lk).
Proof. intros R. exact (mapped_bound e y O (sreach_sinv _ _ _ R) lk). Qed.
Lemma conc_mapped e s O G lk : creach e s O G -> 0 <= keep_max (elg e) -> 0 <= keep_mem (elg e) -> lost (ymem (cy s)) (thread_segs O) (thread_blocks O) lk ->
  ChainSpec.total (lmap (ysrc (cy s))) <= keep_mem (elg e) + keep_max (elg e) + footprint (ymem (cy s)) (thread_blocks O) + 2097152 * Z.of_nat (length lk).
Proof. intros R. exact (mapped_bound e (cy s) O (ci_inv _ _ _ _ (creach_inv _ _ _ _ R)) lk). Qed.
Lemma seq_lost e y O : sreach e y O -> (exists lk, lost (ymem y) (thread_segs O) (thread_blocks O) lk) /\
  (forall lk w c, lost (ymem y) (thread_segs O) (thread_blocks O) lk -> In (w, c) lk -> 1048576 <= c <= 1048576 + 16) /\
  (forall b, In b (thread_blocks O) <-> exists i, i <> 0%nat /\ (holds y O i b \/ In b (pend (oat O i)))).
Proof.
  intros R. pose proof (sreach_sinv _ _ _ R) as S. split; [destruct (all_lost _ _ _ S) as (lk & K & _); exists lk; exact K|]. split; [intros lk w c H; exact (all_band _ _ _ S lk H w c)|].
  intros b. split; [exact (block_place _ _ _ S b)|intros (i & Ni & H); exact (place_block _ _ b i Ni H)].
Qed.
Lemma seq_plain e y O i b : sreach e y O -> holds y O i b -> i <> 0%nat -> bd b <= 1 -> 0 <= ethr e -> Z.max 2097152 (snd (occ (ymem y) (bp b)) + 48) <= bn b + 2097152 + ethr e + 63.
Proof. intros R. exact (plain_weight e y O (sreach_sinv _ _ _ R) i b). Qed.
(** Nothing in use. *)
Lemma seq_idle e y O : sreach e y O -> 0 <= keep_max (elg e) -> 0 <= keep_mem (elg e) -> (forall i b, i <> 0%nat -> ~ holds y O i b /\ ~ In b (pend (oat O i))) ->
  (forall x, In x (thread_segs O) -> ~ exists w c, In (w, c) (occ_in (ymem y) x) /\ 1048576 <= c <= 1048576 + 16) ->
  thread_segs O = [] /\ ChainSpec.total (lmap (ysrc y)) <= keep_mem (elg e) + keep_max (elg e).
Proof.
  intros R K1 K2 NB NL. pose proof (sreach_sinv _ _ _ R) as S. assert (EB : thread_blocks O = []).
  { destruct (thread_blocks O) as [|b l] eqn:E; [reflexivity|]. exfalso. destruct (block_place _ _ _ S b) as (i & Ni & [H|H]); [rewrite E; left; reflexivity| |]; destruct (NB i b Ni) as (N1 & N2); tauto. }
  destruct (all_lost _ _ _ S) as (lk & L & B). assert (EL : lk = []).
  { destruct lk as [|[w c] lk]; [reflexivity|]. exfalso. assert (H : In (w, c) (flat_map (occ_in (ymem y)) (thread_segs O))).
    { apply (Permutation_in _ (Permutation_sym L)). apply in_or_app. right. left. reflexivity. }
    apply in_flat_map in H as (x & H1 & H2). apply (NL x H1). exists w, c. split; [exact H2|]. exact (B w c (or_introl eq_refl)). }
  subst lk. split.
  - destruct (thread_segs O) as [|x l] eqn:E; [reflexivity|]. exfalso. assert (Hx : In x (thread_segs O)) by (rewrite E; left; reflexivity).
    assert (EO : occ_in (ymem y) x = []).
    { unfold lost in L. rewrite EB in L. cbn [map app] in L. apply Permutation_sym, Permutation_nil in L. cbn [flat_map] in L. apply app_eq_nil in L as (L & _). exact L. }
    pose proof (seg_weights _ _ _ S x Hx) as W. rewrite EO in W. change (weights []) with 0 in W.
    apply in_flat_map in Hx as (o & H1 & H2). destruct (tl_chain _ _ _ S o H1) as [->|(i & k & Ni & Hk & Eo & _)]; [destruct H2|].
    pose proof S as (out & C & Lr & M). assert (Ho : In x out) by (apply (m_out _ _ _ _ _ _ _ _ _ M); left; exists i, k; rewrite Eo; auto).
    destruct (mid_page _ _ _ _ _ _ _ _ _ M _ Ho) as (_ & _ & (_ & Q & _)). lia.
  - pose proof (mapped_bound _ _ _ S [] K1 K2 L) as Q. rewrite EB in Q. unfold footprint, weights in Q. cbn [map fold_right length] in Q. lia.
Qed.
