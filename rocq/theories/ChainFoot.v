(** Memory held by a chain with a memory source, compared with its blocks (C66). *)
From Verif Require Import Word Res Mem SizeClassModel ChainModel ChainInv ChainZip ChainSpec ChainCore ChainStep ChainTrace ChainProps ChainWalk FootSpec.
From Coq Require Import ZArith List Bool Lia Permutation.
Import ListNotations.
Open Scope Z_scope.

Lemma weights_app l1 l2 : weights (l1 ++ l2) = weights l1 + weights l2.
Proof. unfold weights. induction l1 as [|x l1 IH]; cbn [app map fold_right]; lia. Qed.
Lemma weights_perm l l' : Permutation l l' -> weights l = weights l'.
Proof. unfold weights. induction 1; cbn [map fold_right] in *; lia. Qed.
Lemma weights_pos l : 0 <= weights l.
Proof. unfold weights. induction l as [|x l IH]; cbn [map fold_right]; unfold weight in *; lia. Qed.
Lemma weights_in x l : In x l -> weight x <= weights l.
Proof.
  induction l as [|a l IH]; intros H; [destruct H|]. pose proof (weights_pos l) as P. change (weights (a :: l)) with (weight a + weights l).
  destruct H as [->|H]; [lia|]. specialize (IH H). unfold weight in *. lia.
Qed.
Lemma weights_small lk : (forall w c, In (w, c) lk -> c <= 1048576 + 16) -> weights lk = 2097152 * Z.of_nat (length lk).
Proof.
  induction lk as [|[w c] lk IH]; intros H; [reflexivity|]. change (weights ((w, c) :: lk)) with (weight (w, c) + weights lk).
  rewrite IH by (intros w' c' K; exact (H w' c' (or_intror K))). specialize (H w c (or_introl eq_refl)). unfold weight. cbn [snd length]. lia.
Qed.

Lemma busy_in l c k : In (c, k) l -> k <> Fr -> forall a, exists w, In (w, c) (busy_from a l).
Proof.
  induction l as [|[c0 k0] l IH]; intros H N a; [destruct H|]. cbn [busy_from]. destruct H as [E|H].
  - injection E as -> ->. exists a. destruct k; [congruence| |]; left; reflexivity.
  - destruct (IH H N (a + c0)) as (w & K). exists w. apply in_or_app. right. exact K.
Qed.

(** The pieces of one segment account for it. *)
Lemma seg_weight g s o A F : Good g s o A F -> csrc g = true -> cmerge g = true -> forall r, In r (segs o) -> snd r <= weights (occ_in (smem s) r).
Proof.
  intros G Hc Hm r Hr. assert (W := good_world _ _ _ _ _ G). assert (C := gd_core _ _ _ _ _ G).
  rewrite (gd_segs _ _ _ _ _ G) in Hr. apply in_map_iff in Hr as (sg & <- & HS). rewrite (occ_in_seg _ _ _ _ W HS).
  destruct (co_src _ _ _ _ _ C Hc) as (_ & _ & SH). destruct (SH _ HS) as (_ & [(p & n & d & E)|(E & _)]).
  - rewrite E. cbn [busy_from app]. unfold weights, weight, segr. cbn [map fold_right snd]. lia.
  - destruct (co_busy _ _ _ _ _ C Hc Hm _ HS) as ((c & k) & H1 & H2). destruct (busy_in _ c k H1 H2 (gbase sg + 32)) as (w & H3).
    pose proof (weights_in _ _ H3) as K. unfold segr, weight in *. cbn [snd] in *. rewrite E. unfold MACRO_BLOC. lia.
Qed.

Definition band (lk : list (Z * Z)) : Prop := forall w c, In (w, c) lk -> 1048576 <= c <= 1048576 + 16.

(** Lists of segments of several chains. *)
Lemma lost_nil m : lost m [] [] [].
Proof. constructor. Qed.
Lemma lost_app m r1 r2 l1 l2 k1 k2 : lost m r1 l1 k1 -> lost m r2 l2 k2 -> lost m (r1 ++ r2) (l1 ++ l2) (k1 ++ k2).
Proof.
  unfold lost. intros H1 H2. rewrite flat_map_app, map_app, <- app_assoc.
  eapply Permutation_trans; [exact (Permutation_app H1 H2)|]. rewrite <- app_assoc. apply Permutation_app_head.
  rewrite !app_assoc. apply Permutation_app_tail. apply Permutation_app_comm.
Qed.
Lemma lost_uniq m r l k1 k2 : lost m r l k1 -> lost m r l k2 -> Permutation k1 k2.
Proof. unfold lost. intros H1 H2. apply (Permutation_app_inv_l (map (fun b => occ m (bp b)) l)). eapply Permutation_trans; [apply Permutation_sym; exact H1|exact H2]. Qed.
Lemma band_perm k1 k2 : Permutation k1 k2 -> band k1 -> band k2.
Proof. intros P H w c K. apply (H w c). exact (Permutation_in _ (Permutation_sym P) K). Qed.
Lemma band_app k1 k2 : band k1 -> band k2 -> band (k1 ++ k2).
Proof. intros H1 H2 w c K. apply in_app_iff in K as [K|K]; [exact (H1 w c K)|exact (H2 w c K)]. Qed.

Lemma lost_flat m (A : list seg) : (forall sg, In sg A -> exists lk, Permutation (occ_in m (segr sg)) (map (fun u => occ m (eptr u)) (used_from (gbase sg + 32) (gchunks sg)) ++ lk) /\ band lk) ->
  exists lk, Permutation (flat_map (occ_in m) (map segr A)) (map (fun u => occ m (eptr u)) (used A) ++ lk) /\ band lk.
Proof.
  induction A as [|sg A IH]; intros H; [exists []; split; [constructor|intros w c []]|].
  destruct (H sg (or_introl eq_refl)) as (k1 & P1 & B1). destruct IH as (k2 & P2 & B2); [intros x Hx; apply H; right; exact Hx|].
  exists (k1 ++ k2). split; [|exact (band_app _ _ B1 B2)]. cbn [map flat_map used]. unfold used in *. cbn [flat_map]. rewrite map_app, <- app_assoc.
  eapply Permutation_trans; [exact (Permutation_app P1 P2)|]. rewrite <- app_assoc. apply Permutation_app_head.
  rewrite !app_assoc. apply Permutation_app_tail. apply Permutation_app_comm.
Qed.
Lemma chain_lost g s o : reach g s o -> exists lk, lost (smem s) (segs o) (blocks o) lk /\ band lk.
Proof.
  intros R. destruct (reach_good _ _ _ R) as (A & F & G). assert (W := good_world _ _ _ _ _ G). assert (C := gd_core _ _ _ _ _ G).
  destruct (lost_flat (smem s) A) as (lk & P & B).
  - intros sg HS. destruct (w_segok _ _ _ _ W _ HS) as (_ & _ & _ & _ & _ & H6 & _). destruct (busy_perm _ _ _ _ H6) as (lk & P & L). exists lk.
    rewrite (occ_in_seg _ _ _ _ W HS). split; [exact P|]. intros w c K. exact (proj2 (co_lk _ _ _ _ _ C _ _ HS (L _ _ K))).
  - exists lk. split; [|exact B]. unfold lost. rewrite (gd_segs _ _ _ _ _ G). eapply Permutation_trans; [exact P|]. apply Permutation_app_tail.
    eapply Permutation_trans; [|apply Permutation_map; exact (co_live _ _ _ _ _ C)]. rewrite map_map. apply Permutation_refl.
Qed.

Lemma lost_weight m r l lk : lost m r l lk -> band lk -> weights (flat_map (occ_in m) r) = footprint m l + 2097152 * Z.of_nat (length lk).
Proof. unfold lost, footprint. intros P B. rewrite (weights_perm _ _ P), weights_app, (weights_small lk); [reflexivity|]. intros w c K. exact (proj2 (B w c K)). Qed.
Lemma segs_weight m : forall r, (forall x, In x r -> snd x <= weights (occ_in m x)) -> total r <= weights (flat_map (occ_in m) r).
Proof.
  induction r as [|x r IH]; intros H; [cbn; lia|]. cbn [flat_map]. rewrite weights_app. pose proof (H x (or_introl eq_refl)) as K.
  specialize (IH (fun z Hz => H z (or_intror Hz))). unfold total in *. cbn [map fold_right]. lia.
Qed.

Lemma chain_held g s o lk : reach g s o -> csrc g = true -> cmerge g = true -> lost (smem s) (segs o) (blocks o) lk ->
  held o <= footprint (smem s) (blocks o) + 2097152 * Z.of_nat (length lk).
Proof.
  intros R Hc Hm HL. destruct (chain_lost g s o R) as (k0 & L0 & B0). pose proof (band_perm _ _ (lost_uniq _ _ _ _ _ L0 HL) B0) as B.
  rewrite <- (lost_weight _ _ _ _ HL B). destruct (reach_good _ _ _ R) as (A & F & G). apply segs_weight. exact (seg_weight _ _ _ _ _ G Hc Hm).
Qed.
Lemma lost_band g s o lk : reach g s o -> lost (smem s) (segs o) (blocks o) lk -> band lk.
Proof. intros R HL. destruct (chain_lost g s o R) as (k0 & L0 & B0). exact (band_perm _ _ (lost_uniq _ _ _ _ _ L0 HL) B0). Qed.
