(** Proofs of the facts about the egg (statements in PropEgg.v). *)
From Verif Require Import Word Res Mem ChainModel ChainSpec LightModel PosixModel PosixSpec PosixChain PosixInv PosixMid PosixRun PosixStep PosixEx EggModel EggSpec EggEx.
From Coq Require Import ZArith List Bool Lia.
Import ListNotations.
Open Scope Z_scope.

Lemma struct_static e y O i k x : sreach e y O -> chain y i = Some k -> cpool (kg k) <= x < cpool (kg k) + CHAIN_SIZE ->
  (eegg e <= x < eegg e + CHAIN_SIZE) \/ (ebuf e <= x < ebuf e + EGG_MEM).
Proof.
  intros R Hk Hx. pose proof (sinv_cor _ _ _ (sreach_sinv _ _ _ R)) as Co. destruct (Nat.eq_dec i 0) as [->|N].
  - destruct (kg_cases _ _ _ _ _ Co Hk) as (_ & _ & _ & K). rewrite (K eq_refl) in Hx. left. exact Hx.
  - destruct (struct_in e y O Co i k Hk N) as (ke & d & u & _ & _ & _ & S4 & S5 & S6). right. lia.
Qed.

Definition mapsb (e : env) (y : sys) : list (Z * Z) := (eegg e, CHAIN_SIZE) :: (ebuf e, EGG_MEM) :: lmap (ysrc y).
Lemma maps_in e y r : In r (mapsb e y) -> forall x, fst r <= x < fst r + snd r -> mapped e y x.
Proof. intros [<-|[<-|H]] x Hx; [left; exact Hx|right; left; exact Hx|right; right]. destruct r as [b z]. exists b, z. auto. Qed.
Lemma maps_out e y b z : forallb (apartb (b, z)) (mapsb e y) = true -> forall x, b <= x < b + z -> ~ mapped e y x.
Proof.
  intros H x Hx M. rewrite forallb_forall in H.
  assert (K : exists r, In r (mapsb e y) /\ fst r <= x < fst r + snd r).
  { destruct M as [M|[M|(b' & z' & M1 & M2)]]; [exists (eegg e, CHAIN_SIZE)|exists (ebuf e, EGG_MEM)|exists (b', z')]; (split; [|cbn [fst snd]; lia]); [left; reflexivity|right; left; reflexivity|right; right; exact M1]. }
  destruct K as (r & K1 & K2). pose proof (apartb_ok _ _ (H r K1)) as A. unfold ChainSpec.apart in A. cbn [fst snd] in A. lia.
Qed.
Lemma struct_unmapped : hreach e7 (H7 e7) (Q7 e7) /\ pool_at (H7 e7) 2 = Some 8388656 /\ flags (H7 e7) 2 = Some (true, true) /\
  pvalid e7 (H7 e7) (Q7 e7) (PFree 9 12582960) /\ panswer 200 e7 (PFree 9 12582960) (H7 e7) = Some (0, None) /\
  ytr (pafter 200 e7 (PFree 9 12582960) (H7 e7)) =
    [TUnlock 2; TDestroy 2; TCall 0 (OFree 8388656) 0 [EPut 8388608]; TCall 2 (OFree 12582960) 0 [EPut 12582912]; TCall 0 OPurge 0 []] /\
  (forall x, 8388656 <= x < 8388656 + CHAIN_SIZE -> mapped e7 (H7 e7) x) /\
  forall x, 8388656 <= x < 8388656 + CHAIN_SIZE -> ~ mapped e7 (pafter 200 e7 (PFree 9 12582960) (H7 e7)) x.
Proof.
  split; [exact hreach_7|]. split; [vm_compute; reflexivity|]. split; [vm_compute; reflexivity|].
  split; [apply (pvalidb_ok e7 (H7 e7) (Q7 e7) (AFree 9 12582960)); vm_compute; reflexivity|]. split; [vm_compute; reflexivity|]. split; [vm_compute; reflexivity|]. split.
  - intros x Hx. apply (maps_in e7 (H7 e7) (8388608, 2097152)); [vm_compute; tauto|]. cbn [fst snd]. unfold CHAIN_SIZE in Hx. lia.
  - apply maps_out. vm_compute. reflexivity.
Qed.
Lemma struct_cached : hreach e0 (H7 e0) (Q7 e0) /\ pool_at (H7 e0) 2 = Some 8388656 /\ pvalid e0 (H7 e0) (Q7 e0) (PFree 9 12582960) /\
  ytr (pafter 200 e0 (PFree 9 12582960) (H7 e0)) =
    [TUnlock 2; TDestroy 2; TCall 0 (OFree 8388656) 0 [EPut 8388608]; TCall 2 (OFree 12582960) 0 [EPut 12582912]; TCall 0 OPurge 0 []] /\
  lcache (ysrc (pafter 200 e0 (PFree 9 12582960) (H7 e0))) = 8388608.
Proof.
  split; [exact hreach_7d|]. split; [vm_compute; reflexivity|].
  split; [apply (pvalidb_ok e0 (H7 e0) (Q7 e0) (AFree 9 12582960)); vm_compute; reflexivity|]. split; vm_compute; reflexivity.
Qed.
Lemma early_lost : hreach e0 H8 Q8 /\ holds H8 Q8 0 (mkBlk 4194448 1500000 0) /\ pvalid e0 H8 Q8 (PFree 1 4194448) /\
  panswer 200 e0 (PFree 1 4194448) H8 = Some (0, None) /\
  ytr (pafter 200 e0 (PFree 1 4194448) H8) = [TCall 0 (OFree 4194448) 0 []; TCall 0 OPurge 0 []] /\
  free_in (ymem (pafter 200 e0 (PFree 1 4194448) H8)) (ebuf e0, EGG_MEM) = free_in (ymem H8) (ebuf e0, EGG_MEM) /\
  panswer 200 e0 (PMalloc 1 700000 (fun _ => 8388608)) (pafter 200 e0 (PFree 1 4194448) H8) = Some (0, Some 8388656) /\
  ytr (pafter 200 e0 (PFree 1 8388656) (pafter 200 e0 (PMalloc 1 700000 (fun _ => 8388608)) (pafter 200 e0 (PFree 1 4194448) H8))) =
    [TUnlock 0; TCall 0 (OFree 8388656) 0 [EPut 8388608]; TCall 0 OPurge 0 []].
Proof.
  split; [exact hreach_8|]. split; [apply held_list_ok; vm_compute; tauto|].
  split; [apply (pvalidb_ok e0 H8 Q8 (AFree 1 4194448)); vm_compute; reflexivity|]. split; [vm_compute; reflexivity|]. split; [vm_compute; reflexivity|]. split; [vm_compute; reflexivity|]. split; vm_compute; reflexivity.
Qed.
