(** Merging of adjacent free chunks. *)
From Verif Require Import Word Res Mem SizeClassModel SizeClassProofs ChainModel Wp ChainInv ChainZip ChainList ChainFl ChainPrim ChainSplit.
From Coq Require Import ZArith List Bool Lia.
Import ListNotations.
Open Scope Z_scope.

Definition lk (l : list chunk) : Prop := Forall (fun ck => snd ck = Lk) l.
Definition allfr (l : list chunk) : Prop := Forall (fun ck => snd ck = Fr) l.
Definition tolk (ck : chunk) : chunk := (fst ck, Lk).
Definition endfr (l : list chunk) : Prop := exists l0 c, l = l0 ++ [(c, Fr)].
Definition begfr (l : list chunk) : Prop := exists l0 c, l = (c, Fr) :: l0.

Lemma tot_tolk l : tot (map tolk l) = tot l.
Proof. induction l as [|[c k] l IH]; cbn [map tolk tot fst]; [reflexivity|]. rewrite IH. reflexivity. Qed.
Lemma lk_tolk l : lk (map tolk l).
Proof. induction l; constructor; auto. Qed.
Lemma lk_nofr l : lk l -> nofr l.
Proof. apply Forall_impl. intros ck ->. discriminate. Qed.
Lemma lk_nous l : lk l -> nous l.
Proof. apply Forall_impl. intros ck ->. exact I. Qed.
Lemma lk_app l1 l2 : lk (l1 ++ l2) <-> lk l1 /\ lk l2.
Proof. unfold lk. apply Forall_app. Qed.

(** The header found at the end of a stretch of chunks. *)
Lemma world_next g r m S1 b z l1 c k l2 S2 a :
  World g r m (S1 ++ mkSeg b z (l1 ++ (c, k) :: l2) :: S2) -> a = b + 32 + tot l1 ->
  accb r (a + c) 16 = true /\
  ld m (a + c + 15) 1 = match l2 with (_, Fr) :: _ => 129 | _ => 133 end.
Proof.
  intros W Ea. assert (HC := world_chunk _ _ _ _ _ _ _ _ _ _ _ _ W Ea).
  destruct HC as (H1 & H2 & _ & _ & H7 & H8 & H9 & H10 & H11 & _).
  split; [eapply accb_intro; [exact H11|lia|lia]|].
  assert (HS : segok g m (mkSeg b z (l1 ++ (c, k) :: l2))).
  { eapply w_segok; [exact W|]. rewrite in_app_iff. right. left. reflexivity. }
  destruct HS as (K1 & K2 & K3 & K4 & K5 & K6 & K7). cbn [gbase gsize gchunks] in *.
  rewrite tot_app in K3. rewrite cks_app in K6. destruct K6 as (C1 & C2). cbn [cks tot] in *.
  destruct C2 as (_ & _ & _ & _ & C3).
  destruct l2 as [|[c' k'] l2].
  - destruct K7 as (_ & _ & K7). cbn [tot] in K3. replace (a + c + 15) with (b + z - 16 + 15) by lia. exact K7.
  - cbn [cks] in C3. destruct C3 as (_ & _ & (_ & _ & C3) & _). rewrite <- Ea in C3. rewrite C3. destruct k'; reflexivity.
Qed.

Lemma wp_get_state s v inf (Q : Z -> st -> Prop) : accb (srng s) v 1 = true -> ld (smem s) v 1 = inf ->
  Q (i_state inf) s -> wp (get_state v) s Q.
Proof.
  intros AC E H. unfold get_state. apply wp_bind. apply wp_load; [exact AC|]. rewrite E. apply wp_ret. exact H.
Qed.

Lemma chg_scratch_step g S1 b z l1 mid mid' l2 S2 (m m1 m2 : mem) :
  nous mid -> nous mid' -> tot mid' = tot mid ->
  chg m m1 (scratch g (S1 ++ mkSeg b z (l1 ++ mid ++ l2) :: S2)) ->
  chg m1 m2 (scratch g (S1 ++ mkSeg b z (l1 ++ mid' ++ l2) :: S2)) ->
  chg m m2 (scratch g (S1 ++ mkSeg b z (l1 ++ mid ++ l2) :: S2)).
Proof.
  intros N N' E H1 H2. eapply chg_trans; [exact H1|]. eapply chg_weaken; [exact H2|].
  intros x Hx. apply (scratch_replace g S1 b z l1 mid mid' l2 S2 x N N' E). exact Hx.
Qed.

Definition cur_left (a pv : Z) : Z := if pv =? 0 then 0 else a + 15 - pv.

Lemma prev_chunk_spec g s S1 b z l1 c k l2 S2 a (Q : Z -> st -> Prop) :
  World g (srng s) (smem s) (S1 ++ mkSeg b z (l1 ++ (c, k) :: l2) :: S2) -> a = b + 32 + tot l1 ->
  Q (cur_left a (lastsz 0 l1)) s -> wp (prev_chunk (a + 15)) s Q.
Proof.
  intros W Ea H. assert (HC := world_chunk _ _ _ _ _ _ _ _ _ _ _ _ W Ea).
  destruct HC as (H1 & H2 & (H3 & H4 & H5) & _ & H7 & H8 & H9 & H10 & H11 & H12 & H13 & H14 & H15 & H16).
  assert (HP := world_prev _ _ _ _ _ _ _ _ _ _ _ W).
  assert (AC : accb (srng s) (a + 8) 7 = true) by (eapply accb_intro; [exact H11|lia|lia]).
  unfold prev_chunk, vprevsize, large_of, SZ_LARGE. replace (a + 15 + 1 - 16) with a by lia.
  apply wp_bind. apply wp_load; [exact AC|]. rewrite H4. unfold cur_left in H.
  destruct (Z.eqb_spec (lastsz 0 l1) 0) as [E|E]; [apply wp_ret; exact H|].
  apply wp_bind. apply wp_load; [exact AC|]. rewrite H4. apply wp_ret.
  assert (lastsz 0 l1 <= tot l1) by (destruct HP as [(-> & K)|(l0 & p & kp & -> & K1 & K2 & K3 & K4)]; rewrite ?K, ?K1; cbn [tot]; lia).
  rewrite sub64_small by (rewrite W64_val; lia). exact H.
Qed.

Lemma next_chunk_spec g s S1 b z l1 c k l2 S2 a (Q : Z -> st -> Prop) :
  World g (srng s) (smem s) (S1 ++ mkSeg b z (l1 ++ (c, k) :: l2) :: S2) -> a = b + 32 + tot l1 ->
  Q (a + c + 15) s -> wp (next_chunk (a + 15)) s Q.
Proof.
  intros W Ea H. assert (HC := world_chunk _ _ _ _ _ _ _ _ _ _ _ _ W Ea).
  destruct HC as (H1 & H2 & (H3 & H4 & H5) & _ & H7 & H8 & H9 & H10 & H11 & _).
  unfold next_chunk, vsize, large_of, SZ_LARGE. replace (a + 15 + 1 - 16) with a by lia.
  apply wp_bind. apply wp_load; [eapply accb_intro; [exact H11|lia|cbn; lia]|]. rewrite H3. apply wp_ret.
  rewrite add64_small by (rewrite W64_val; lia). replace (a + 15 + c) with (a + c + 15) by lia. exact H.
Qed.

Lemma merge_left_spec g S1 b z l2 S2 fuel : forall s F l1 c mid a,
  Inv g s (S1 ++ mkSeg b z (l1 ++ ((c, Lk) :: mid) ++ l2) :: S2) F -> a = b + 32 + tot l1 -> lk mid ->
  (length l1 < fuel)%nat ->
  wp (merge_left fuel g (a + 15) (cur_left a (lastsz 0 l1))) s (fun v s' =>
    exists l1' fs F', l1 = l1' ++ fs /\ allfr fs /\ ~ endfr l1' /\ v = b + 32 + tot l1' + 15 /\
      Inv g s' (S1 ++ mkSeg b z (l1' ++ (map tolk fs ++ (c, Lk) :: mid) ++ l2) :: S2) F' /\ memonly s s' /\
      chg (smem s) (smem s') (scratch g (S1 ++ mkSeg b z (l1 ++ ((c, Lk) :: mid) ++ l2) :: S2))).
Proof.
  induction fuel as [|fuel IH]; intros s F l1 c mid a IV Ea HL Hf; [lia|].
  cbn [merge_left].
  assert (IV' := IV). destruct IV' as [W FL HB]. cbn [app] in W.
  assert (HP := world_prev _ _ _ _ _ _ _ _ _ _ _ W).
  assert (STOP : ~ endfr l1 -> exists l1' fs F', l1 = l1' ++ fs /\ allfr fs /\ ~ endfr l1' /\ a + 15 = b + 32 + tot l1' + 15 /\
      Inv g s (S1 ++ mkSeg b z (l1' ++ (map tolk fs ++ (c, Lk) :: mid) ++ l2) :: S2) F' /\ memonly s s /\
      chg (smem s) (smem s) (scratch g (S1 ++ mkSeg b z (l1 ++ ((c, Lk) :: mid) ++ l2) :: S2))).
  { intros K. exists l1, [], F. rewrite app_nil_r. split; [reflexivity|]. split; [constructor|]. split; [exact K|].
    split; [lia|]. split; [exact IV|]. split; [apply memonly_refl|apply chg_refl]. }
  unfold cur_left.
  destruct HP as [(E1 & E2)|(l0 & p & kp & E1 & E2 & Hp & Et & Ht)].
  - rewrite E2. cbn [Z.eqb]. apply wp_ret. apply STOP. rewrite E1. intros (l & d & K). destruct l; discriminate.
  - rewrite E2. assert (Hpne : (p =? 0) = false) by (apply Z.eqb_neq; lia). rewrite Hpne.
    assert (W0 : World g (srng s) (smem s) (S1 ++ mkSeg b z (l0 ++ (p, kp) :: ((c, Lk) :: mid) ++ l2) :: S2)).
    { rewrite E1 in W. rewrite <- app_assoc in W. exact W. }
    assert (Ep : a - p = b + 32 + tot l0) by lia.
    assert (HC := world_chunk _ _ _ _ _ _ _ _ _ _ _ _ W0 Ep).
    destruct HC as (H1 & H2 & (H3 & H4 & H5) & _ & H7 & H8 & H9 & H10 & H11 & _).
    assert (Hne : (a + 15 - p =? 0) = false) by (apply Z.eqb_neq; lia). rewrite Hne.
    apply wp_bind. eapply wp_get_state; [eapply accb_intro; [exact H11|lia|lia]| |].
    { replace (a + 15 - p) with (a - p + 15) by lia. exact H5. }
    destruct kp as [| |pp nn dd]; cbn [info_of].
    + change (i_state 129 =? S_FREE) with true. cbn iota.
      apply wp_bind. apply (wp_get_ptr_large _ _ 129); [eapply accb_intro; [exact H11|lia|lia]| |reflexivity|].
      { replace (a + 15 - p) with (a - p + 15) by lia. exact H5. }
      replace (a + 15 - p - 15) with (a - p) by lia.
      assert (IV0 : Inv g s (S1 ++ mkSeg b z (l0 ++ (p, Fr) :: ((c, Lk) :: mid) ++ l2) :: S2) F).
      { rewrite E1 in IV. rewrite <- app_assoc in IV. exact IV. }
      apply wp_bind. eapply wp_mono; [eapply remove_spec; [exact IV0|exact Ep]|].
      intros _ s1 (F1 & IV1 & M1 & C1).
      assert (W1 := iv_w _ _ _ _ IV1).
      apply wp_bind. replace (a + 15 - p) with (a - p + 15) by lia.
      eapply prev_chunk_spec; [exact W1|exact Ep|].
      eapply wp_mono.
      { apply (IH s1 F1 l0 p ((c, Lk) :: mid) (a - p)); [exact IV1|exact Ep| |].
        - constructor; [reflexivity|exact HL].
        - rewrite E1, app_length in Hf. cbn in Hf. lia. }
      intros v s2 (l1' & fs & F2 & K1 & K2 & K3 & K4 & K5 & K6 & K7).
      exists l1', (fs ++ [(p, Fr)]), F2.
      split; [rewrite E1, K1, <- app_assoc; reflexivity|].
      split; [apply Forall_app; split; [exact K2|repeat constructor]|].
      split; [exact K3|]. split; [exact K4|].
      split. { rewrite map_app, <- !app_assoc. cbn [map tolk fst app]. rewrite <- app_assoc in K5. exact K5. }
      split; [eapply memonly_trans; eauto|].
      rewrite E1, <- app_assoc. cbn [app].
      apply (chg_scratch_step g S1 b z l0 [(p, Fr)] [(p, Lk)] (((c, Lk) :: mid) ++ l2) S2 _ (smem s1)); [repeat constructor|repeat constructor|reflexivity|exact C1|exact K7].
    + change (i_state 133 =? S_FREE) with false. cbn iota. apply wp_ret. apply STOP.
      rewrite E1. intros (l & d & K). apply app_inj_tail in K as [_ K]. discriminate.
    + change (i_state 133 =? S_FREE) with false. cbn iota. apply wp_ret. apply STOP.
      rewrite E1. intros (l & d & K). apply app_inj_tail in K as [_ K]. discriminate.
Qed.

Lemma merge_right_spec g S1 b z l1 S2 fuel : forall s F l2 c mid al,
  Inv g s (S1 ++ mkSeg b z (l1 ++ (mid ++ [(c, Lk)]) ++ l2) :: S2) F -> al = b + 32 + tot l1 + tot mid -> lk mid ->
  (length l2 < fuel)%nat ->
  wp (merge_right fuel g (al + 15) (al + c + 15)) s (fun v s' =>
    exists fs l2' F' mid' c', l2 = fs ++ l2' /\ allfr fs /\ ~ begfr l2' /\
      (mid ++ [(c, Lk)]) ++ map tolk fs = mid' ++ [(c', Lk)] /\ lk mid' /\ v = b + 32 + tot l1 + tot mid' + 15 /\
      Inv g s' (S1 ++ mkSeg b z (l1 ++ (mid' ++ [(c', Lk)]) ++ l2') :: S2) F' /\ memonly s s' /\
      chg (smem s) (smem s') (scratch g (S1 ++ mkSeg b z (l1 ++ (mid ++ [(c, Lk)]) ++ l2) :: S2))).
Proof.
  induction fuel as [|fuel IH]; intros s F l2 c mid al IV Ea HL Hf; [lia|].
  cbn [merge_right].
  assert (EQ : forall l2, l1 ++ (mid ++ [(c, Lk)]) ++ l2 = (l1 ++ mid) ++ (c, Lk) :: l2).
  { intros l. rewrite <- !app_assoc. reflexivity. }
  assert (IV' := IV). rewrite EQ in IV'. destruct IV' as [W FL HB].
  assert (Ea' : al = b + 32 + tot (l1 ++ mid)) by (rewrite tot_app; lia).
  assert (HC := world_chunk _ _ _ _ _ _ _ _ _ _ _ _ W Ea').
  destruct HC as (H1 & H2 & (H3 & H4 & H5) & _ & H7 & H8 & H9 & H10 & H11 & _).
  destruct (world_next _ _ _ _ _ _ _ _ _ _ _ _ W Ea') as (AC & EI).
  assert (Hne : (al + c + 15 =? 0) = false) by (apply Z.eqb_neq; lia). rewrite Hne.
  assert (AC1 : accb (srng s) (al + c + 15) 1 = true) by (eapply accb_sub; [exact AC|lia|lia]).
  apply wp_bind. eapply wp_get_state; [exact AC1|exact EI|].
  assert (STOP : ~ begfr l2 -> exists fs l2' F' mid' c', l2 = fs ++ l2' /\ allfr fs /\ ~ begfr l2' /\
      (mid ++ [(c, Lk)]) ++ map tolk fs = mid' ++ [(c', Lk)] /\ lk mid' /\ al + 15 = b + 32 + tot l1 + tot mid' + 15 /\
      Inv g s (S1 ++ mkSeg b z (l1 ++ (mid' ++ [(c', Lk)]) ++ l2') :: S2) F' /\ memonly s s /\
      chg (smem s) (smem s) (scratch g (S1 ++ mkSeg b z (l1 ++ (mid ++ [(c, Lk)]) ++ l2) :: S2))).
  { intros K. exists [], l2, F, mid, c. split; [reflexivity|]. split; [constructor|]. split; [exact K|].
    split; [apply app_nil_r|]. split; [exact HL|].
    split; [lia|]. split; [exact IV|]. split; [apply memonly_refl|apply chg_refl]. }
  destruct l2 as [|[d kd] l2].
  - change (i_state 133 =? S_FREE) with false. cbn iota. apply wp_ret. apply STOP. intros (l & e & K). discriminate.
  - destruct kd as [| |pp nn dd].
    2:{ change (i_state 133 =? S_FREE) with false. cbn iota. apply wp_ret. apply STOP. intros (l & e & K). discriminate. }
    2:{ change (i_state 133 =? S_FREE) with false. cbn iota. apply wp_ret. apply STOP. intros (l & e & K). discriminate. }
    change (i_state 129 =? S_FREE) with true. cbn iota.
    apply wp_bind. eapply wp_get_ptr_large; [exact AC1|exact EI|reflexivity|].
    replace (al + c + 15 - 15) with (al + c) by lia.
    assert (EQ2 : forall k, l1 ++ (mid ++ [(c, Lk)]) ++ (d, k) :: l2 = (l1 ++ mid ++ [(c, Lk)]) ++ (d, k) :: l2).
    { intros k. rewrite <- !app_assoc. reflexivity. }
    assert (Ed : al + c = b + 32 + tot (l1 ++ mid ++ [(c, Lk)])) by (rewrite !tot_app; cbn [tot]; lia).
    assert (IV0 := IV). rewrite EQ2 in IV0.
    apply wp_bind. eapply wp_mono; [eapply remove_spec; [exact IV0|exact Ed]|].
    intros _ s1 (F1 & IV1 & M1 & C1).
    assert (W1 := iv_w _ _ _ _ IV1).
    apply wp_bind. eapply next_chunk_spec; [exact W1|exact Ed|].
    assert (EQ3 : (l1 ++ mid ++ [(c, Lk)]) ++ (d, Lk) :: l2 = l1 ++ ((mid ++ [(c, Lk)]) ++ [(d, Lk)]) ++ l2).
    { rewrite <- !app_assoc. reflexivity. }
    eapply wp_mono.
    { apply (IH s1 F1 l2 d (mid ++ [(c, Lk)]) (al + c)).
      - rewrite EQ3 in IV1. exact IV1.
      - rewrite tot_app. cbn [tot]. lia.
      - apply lk_app. split; [exact HL|repeat constructor].
      - cbn in Hf. lia. }
    intros v s2 (fs & l2' & F2 & mid' & c' & K1 & K2 & K3 & K4 & K5 & K6 & K7 & K8 & K9).
    exists ((d, Fr) :: fs), l2', F2, mid', c'.
    split; [rewrite K1; reflexivity|].
    split; [constructor; [reflexivity|exact K2]|].
    split; [exact K3|].
    split. { rewrite <- K4. cbn [map tolk fst]. rewrite <- !app_assoc. reflexivity. }
    split; [exact K5|]. split; [exact K6|]. split; [exact K7|].
    split; [eapply memonly_trans; eauto|].
    rewrite <- EQ3 in K9. rewrite EQ2.
    apply (chg_scratch_step g S1 b z (l1 ++ mid ++ [(c, Lk)]) [(d, Fr)] [(d, Lk)] l2 S2 _ (smem s1)); [repeat constructor|repeat constructor|reflexivity|exact C1|exact K9].
Qed.

Lemma merge_spec g s F S1 b z l1 c l2 S2 a fuel :
  Inv g s (S1 ++ mkSeg b z (l1 ++ (c, Lk) :: l2) :: S2) F -> a = b + 32 + tot l1 ->
  (length l1 < fuel)%nat -> (length l2 < fuel)%nat ->
  wp (merge_chunk fuel g (a + 15)) s (fun v s' =>
    exists l1' fl fr l2' F', l1 = l1' ++ fl /\ l2 = fr ++ l2' /\ allfr fl /\ allfr fr /\ ~ endfr l1' /\ ~ begfr l2' /\
      v = b + 32 + tot l1' + 15 /\
      Inv g s' (S1 ++ mkSeg b z (l1' ++ (tot fl + c + tot fr, Lk) :: l2') :: S2) F' /\ memonly s s' /\
      chg (smem s) (smem s') (scratch g (S1 ++ mkSeg b z (l1 ++ (c, Lk) :: l2) :: S2))).
Proof.
  intros IV Ea Hf1 Hf2. assert (IV' := IV). destruct IV' as [W FL HB].
  assert (HC := world_chunk _ _ _ _ _ _ _ _ _ _ _ _ W Ea).
  destruct HC as (H1 & H2 & (H3 & H4 & H5) & _ & H7 & H8 & H9 & H10 & H11 & _).
  unfold merge_chunk.
  apply wp_bind. eapply wp_get_state; [eapply accb_intro; [exact H11|lia|lia]|exact H5|].
  apply wp_bind. apply wp_assume; [reflexivity|].
  apply wp_bind. eapply prev_chunk_spec; [exact W|exact Ea|].
  apply wp_bind. eapply wp_mono; [apply (merge_left_spec g S1 b z l2 S2 fuel s F l1 c []); [exact IV|exact Ea|constructor|exact Hf1]|].
  intros first s1 (l1' & fl & F1 & E1 & A1 & N1 & V1 & IV1 & M1 & C1).
  assert (EQ1 : l1' ++ (map tolk fl ++ [(c, Lk)]) ++ l2 = (l1' ++ map tolk fl) ++ (c, Lk) :: l2).
  { rewrite <- !app_assoc. reflexivity. }
  assert (Ea1 : a = b + 32 + tot (l1' ++ map tolk fl)) by (rewrite tot_app, tot_tolk, Ea, E1, tot_app; lia).
  assert (W1 : World g (srng s1) (smem s1) (S1 ++ mkSeg b z ((l1' ++ map tolk fl) ++ (c, Lk) :: l2) :: S2)).
  { rewrite <- EQ1. exact (iv_w _ _ _ _ IV1). }
  apply wp_bind. eapply next_chunk_spec; [exact W1|exact Ea1|].
  apply wp_bind. eapply wp_mono.
  { apply (merge_right_spec g S1 b z l1' S2 fuel s1 F1 l2 c (map tolk fl) a); [exact IV1| |apply lk_tolk|exact Hf2].
    rewrite tot_app in Ea1. lia. }
  intros last s2 (fr & l2' & F2 & mid & c' & E2 & A2 & N2 & EM & LM & V2 & IV2 & M2 & C2).
  assert (ET : tot mid + c' = tot fl + c + tot fr).
  { assert (K : tot (mid ++ [(c', Lk)]) = tot ((map tolk fl ++ [(c, Lk)]) ++ map tolk fr)) by (f_equal; symmetry; exact EM).
    rewrite !tot_app, !tot_tolk in K. cbn [tot] in K. lia. }
  assert (EQ2 : l1' ++ (mid ++ [(c', Lk)]) ++ l2' = (l1' ++ mid) ++ (c', Lk) :: l2').
  { rewrite <- !app_assoc. reflexivity. }
  set (al := b + 32 + tot l1' + tot mid).
  assert (Eal : al = b + 32 + tot (l1' ++ mid)) by (unfold al; rewrite tot_app; lia).
  assert (W2 : World g (srng s2) (smem s2) (S1 ++ mkSeg b z ((l1' ++ mid) ++ (c', Lk) :: l2') :: S2)).
  { rewrite <- EQ2. exact (iv_w _ _ _ _ IV2). }
  assert (HC2 := world_chunk _ _ _ _ _ _ _ _ _ _ _ _ W2 Eal).
  destruct HC2 as (G1 & G2 & (G3 & G4 & G5) & _ & G7 & G8 & G9 & G10 & G11 & _).
  destruct (world_next _ _ _ _ _ _ _ _ _ _ _ _ W2 Eal) as (ACN & _).
  (* the first chunk *)
  set (af := b + 32 + tot l1').
  assert (FIRST : hdr (smem s2) af (match mid ++ [(c', Lk)] with (x, _) :: _ => x | [] => 0 end) (lastsz 0 l1') 133 /\
     b + 32 <= af /\ af + 32 <= al + c' /\ 0 <= lastsz 0 l1' <= tot l1' /\ 0 <= tot l1' /\ 0 <= tot mid /\ (lastsz 0 l1' = 0 \/ 32 <= lastsz 0 l1') /\ (tot mid + c') mod 16 = 0).
  { assert (X : exists c0 mid0, mid ++ [(c', Lk)] = (c0, Lk) :: mid0 /\ 0 <= tot mid).
    { destruct mid as [|[c0 k0] mid0].
      - exists c', []. cbn. split; [reflexivity|lia].
      - cbn [app]. assert (LK1 := Forall_inv LM). cbn in LK1. subst k0. exists c0, (mid0 ++ [(c', Lk)]).
        split; [reflexivity|].
        assert (HS : segok g (smem s2) (mkSeg b z ((l1' ++ (c0, Lk) :: mid0) ++ (c', Lk) :: l2'))).
        { eapply w_segok; [exact W2|]. rewrite in_app_iff. right. left. reflexivity. }
        destruct HS as (_ & _ & _ & _ & _ & K6 & _). cbn [gchunks] in K6. rewrite !cks_app in K6.
        destruct K6 as ((_ & K6) & _). exact (cks_tot _ _ _ _ K6). }
    destruct X as (c0 & mid0 & EX & TM). rewrite EX.
    assert (W2' : World g (srng s2) (smem s2) (S1 ++ mkSeg b z (l1' ++ (c0, Lk) :: (mid0 ++ l2')) :: S2)).
    { assert (K := iv_w _ _ _ _ IV2). rewrite EX in K. exact K. }
    assert (HC3 := world_chunk _ _ _ _ _ _ _ _ _ _ _ af W2' eq_refl).
    destruct HC3 as (Q1 & Q2 & Q3 & _ & Q7 & Q8 & Q9 & Q10 & Q11 & Q12 & Q13 & Q14 & Q15 & Q16).
    split; [exact Q3|]. split; [lia|].
    split. { unfold al, af. lia. }
    assert (HP := world_prev _ _ _ _ _ _ _ _ _ _ _ W2').
    assert (PVL : 0 <= lastsz 0 l1' <= tot l1') by (destruct HP as [(-> & K)|(l0 & p & kp & -> & K1 & K2 & K3 & K4)]; rewrite ?K, ?K1; cbn [tot]; lia).
    assert (PV0 : lastsz 0 l1' = 0 \/ 32 <= lastsz 0 l1' ) by (destruct HP as [(_ & K)|(l0 & p & kp & _ & K1 & K2 & _)]; lia).
    assert (HC2 := world_chunk _ _ _ _ _ _ _ _ _ _ _ _ W2 Eal).
    destruct HC2 as (_ & _ & _ & _ & _ & _ & _ & _ & _ & _ & _ & _ & G15 & _). unfold af, al in *. repeat split; try lia. }
  destruct FIRST as ((F3 & F4 & F5) & B1 & B2 & B3 & B4 & B5 & B6 & B7).
  assert (BW := W64_val).
  subst last. fold al.
  assert (ACal : accb (srng s2) (al + 15) 1 = true) by (eapply accb_intro; [exact G11|lia|lia]).
  assert (ACaf : accb (srng s2) (af + 15) 1 = true) by (eapply accb_intro; [exact G11|lia|lia]).
  apply wp_bind. eapply wp_get_ptr_large; [exact ACal|exact G5|reflexivity|].
  subst first. fold af.
  apply wp_bind. eapply wp_get_ptr_large; [exact ACaf|exact F5|reflexivity|].
  replace (al + 15 - 15) with al by lia. replace (af + 15 - 15) with af by lia.
  apply wp_bind. unfold vsize, large_of, SZ_LARGE. replace (al + 15 + 1 - 16) with al by lia.
  apply wp_load; [eapply accb_intro; [exact G11|lia|cbn; lia]|]. rewrite G3.
  assert (ESZ : add64 (sub64 al af) c' = tot fl + c + tot fr).
  { rewrite sub64_small by lia. rewrite add64_small by lia. unfold al, af. lia. }
  rewrite ESZ. set (size := tot fl + c + tot fr) in *. cbv zeta.
  apply wp_bind. eapply next_chunk_spec; [exact W2|exact Eal|].
  apply wp_bind. unfold set_prevsize.
  replace (al + c' + 15 + 1 - 16 + 8) with (al + c' + 8) by lia.
  apply wp_store; [eapply accb_sub; [exact ACN|lia|cbn; lia]|].
  set (m3 := sto (smem s2) (al + c' + 8) 7 size).
  assert (C3 : chg (smem s2) m3 (fun x => al + c' + 8 <= x < al + c' + 15)).
  { unfold m3. apply chg_sto; [apply chg_refl|]. intros x Hx. cbn in Hx. lia. }
  apply wp_bind. apply (wp_get_ptr_large _ _ 133); [exact ACaf| |reflexivity|].
  { cbn [smem set_mem]. rewrite (chg_ld _ _ _ _ _ C3); [exact F5|]. intros x Hx; cbn in Hx; lia. }
  replace (af + 15 - 15) with af by lia.
  apply wp_bind. unfold vprevsize, large_of, SZ_LARGE. replace (af + 15 + 1 - 16) with af by lia.
  apply wp_load; [eapply accb_intro; [exact G11|lia|cbn; lia]|].
  cbn [smem set_mem]. rewrite (chg_ld _ _ _ _ _ C3) by (intros x Hx; cbn in Hx; lia). rewrite F4.
  rewrite sub64_small by lia.
  apply (setup_chunk_spec af size (af - lastsz 0 l1') (lastsz 0 l1')); try lia.
  { eapply accb_intro; [exact G11|lia|lia]. }
  cbn [smem set_mem]. intros m4 C4 Hd4. rewrite set_mem_mem.
  assert (C24 : chg (smem s2) m4 (fun x => af <= x < af + tot (mid ++ [(c', Lk)]) \/ af + tot (mid ++ [(c', Lk)]) + 8 <= x < af + tot (mid ++ [(c', Lk)]) + 15)).
  { rewrite tot_app. cbn [tot]. eapply chg_trans2; [exact C3|exact C4| |]; intros x Hx; cbv beta in Hx; unfold al in *; lia. }
  assert (LKM : lk (mid ++ [(c', Lk)])) by (apply lk_app; split; [exact LM|repeat constructor]).
  exists l1', fl, fr, l2', F2. split; [exact E1|]. split; [exact E2|]. split; [exact A1|]. split; [exact A2|].
  split; [exact N1|]. split; [exact N2|]. split; [reflexivity|].
  split; [|split].
  - apply (inv_renof g s2 F2 S1 b z l1' (mid ++ [(c', Lk)]) [(size, Lk)] l2' S2 af m4); auto.
    + destruct mid; discriminate.
    + apply lk_nofr. exact LKM.
    + repeat constructor; discriminate.
    + rewrite tot_app. cbn [tot]. lia.
    + cbn [cks kok]. split; [lia|]. split; [lia|]. auto.
    + rewrite tot_app. cbn [tot lastsz]. replace (af + (tot mid + (c' + 0)) + 8) with (al + c' + 8) by (unfold al, af; lia).
      rewrite (chg_ld _ _ _ _ _ C4) by (intros x Hx; cbn in Hx; lia). apply ld7_same. lia.
  - eapply memonly_trans; [exact M1|]. eapply memonly_trans; [exact M2|]. apply memonly_set.
  - cbn [smem set_mem].
    (* scratch sets *)
    assert (FL1 : nous fl) by (eapply Forall_impl; [|exact A1]; intros ck ->; exact I).
    assert (FR1 : nous fr) by (eapply Forall_impl; [|exact A2]; intros ck ->; exact I).
    rewrite E1, E2 in C1.
    assert (EQ : forall mm, (l1' ++ fl) ++ mm ++ fr ++ l2' = l1' ++ (fl ++ mm ++ fr) ++ l2').
    { intros mm. rewrite <- !app_assoc. reflexivity. }
    rewrite (EQ [(c, Lk)]) in C1. rewrite E1, E2.
    change ((l1' ++ fl) ++ (c, Lk) :: fr ++ l2') with ((l1' ++ fl) ++ [(c, Lk)] ++ fr ++ l2'). rewrite (EQ [(c, Lk)]).
    assert (NM : nous (fl ++ [(c, Lk)] ++ fr)).
    { apply Forall_app. split; [exact FL1|]. constructor; [exact I|exact FR1]. }
    rewrite E2 in C2.
    assert (EQ' : l1' ++ (map tolk fl ++ [(c, Lk)]) ++ fr ++ l2' = l1' ++ ((map tolk fl ++ [(c, Lk)]) ++ fr) ++ l2').
    { rewrite <- !app_assoc. reflexivity. }
    assert (C2' : chg (smem s1) (smem s2) (scratch g (S1 ++ mkSeg b z (l1' ++ ((map tolk fl ++ [(c, Lk)]) ++ fr) ++ l2') :: S2))) by (rewrite <- EQ'; exact C2).
    assert (NM2 : nous ((map tolk fl ++ [(c, Lk)]) ++ fr)).
    { apply Forall_app. split; [|exact FR1]. apply Forall_app. split; [apply lk_nous, lk_tolk|repeat constructor]. }
    assert (C02 := chg_scratch_step g S1 b z l1' _ _ l2' S2 _ _ _ NM NM2 ltac:(rewrite !tot_app, tot_tolk; cbn [tot]; lia) C1 C2').
    eapply (chg_scratch_step g S1 b z l1' _ (mid ++ [(c', Lk)]) l2' S2); [exact NM|apply lk_nous; exact LKM| |exact C02|].
    + rewrite !tot_app. cbn [tot]. unfold size in ET. lia.
    + eapply chg_weaken; [exact C24|]. intros x Hx. cbv beta in Hx.
      eapply (stretch_scratch g (srng s2) (smem s2) S1 b z l1' (mid ++ [(c', Lk)]) l2' S2 af); [exact (iv_w _ _ _ _ IV2)|reflexivity|apply lk_nous; exact LKM|]. lia.
Qed.
