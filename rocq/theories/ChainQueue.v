(** Remote frees, collection of remote frees, refill and creation of a chain preserve the invariant. *)
From Verif Require Import Word Res Mem SizeClassModel SizeClassProofs ChainModel Wp ChainInv ChainZip ChainList ChainFl ChainPrim ChainFind ChainSplit ChainMerge ChainOps ChainAlloc ChainFree ChainSpec ChainCore ChainCoreFree ChainStep.
From Coq Require Import ZArith List Bool Lia Permutation.
Import ListNotations.
Open Scope Z_scope.

Lemma NoDup_app_remove_l {T} (l1 l2 : list T) : NoDup (l1 ++ l2) -> NoDup l2.
Proof. induction l1 as [|x l1 IH]; intros H; [exact H|]. inversion H; auto. Qed.
Lemma NoDup_app_remove_r {T} (l1 l2 : list T) : NoDup (l1 ++ l2) -> NoDup l1.
Proof.
  induction l1 as [|x l1 IH]; intros H; [constructor|]. cbn [app] in H. inversion H as [|? ? H1 H2]; subst. constructor; [|auto].
  intros K. apply H1. apply in_or_app. left. exact K.
Qed.

(** ** Number of blocks *)
Lemma used_from_len l : forall a, (length (used_from a l) <= length l)%nat.
Proof.
  induction l as [|[c k] l IH]; intros a; cbn [used_from length]; [lia|].
  rewrite app_length. specialize (IH (a + c)). destruct k; cbn [length]; lia.
Qed.
Lemma used_len g r m A : Forall (segok g m) A -> World g r m A -> Z.of_nat (length (used A)) <= bytes A.
Proof.
  intros H _. unfold used, bytes. induction A as [|sg A IH]; cbn [flat_map map fold_right length]; [lia|].
  inversion H as [|? ? H1 H2]; subst. specialize (IH H2). rewrite app_length.
  destruct H1 as (K1 & K2 & K3 & _ & _ & K6 & _). assert (L := cks_len _ _ _ _ K6).
  assert (U := used_from_len (gchunks sg) (gbase sg + 32)). lia.
Qed.
Lemma core_len g s B A F : Core g s B A F -> Z.of_nat (length B) <= bytes A.
Proof.
  intros C. assert (W := iv_w _ _ _ _ (co_inv _ _ _ _ _ C)).
  rewrite <- (Permutation_length (co_live _ _ _ _ _ C)), map_length. eapply used_len; [exact (wd_seg _ _ _ _ W)|exact W].
Qed.

(** ** Collection of remote frees *)
Lemma rm_mid b l1 l2 : NoDup (map bp (l1 ++ b :: l2)) -> rm (bp b) (l1 ++ b :: l2) = l1 ++ l2.
Proof.
  intros N. rewrite map_app in N. cbn [map] in N. assert (N1 := NoDup_remove_2 _ _ _ N).
  rewrite rm_app. cbn [rm filter]. rewrite Z.eqb_refl. cbn [negb]. fold (rm (bp b) l2).
  rewrite !rm_other; [reflexivity| |]; intros b' Hb' E; apply N1; apply in_or_app; [right|left]; rewrite <- E; apply in_map; exact Hb'.
Qed.

Lemma purge_core fuel g Lv L : forall qfuel s A F, Core g s (Lv ++ L) A F -> qok (smem s) (map bp L) ->
  bytes A < Z.of_nat fuel -> Z.of_nat (length L) < Z.of_nat qfuel ->
  wp (purge_loop fuel qfuel g (hd 0 (map bp L))) s (fun _ s' => exists A' F' evs,
    Core g s' Lv A' F' /\ trans s A s' A' (fun q => In q (map bp L)) evs /\ bytes A' <= bytes A).
Proof.
  induction L as [|[p n d] L IH]; intros qfuel s A F C Q Hf Hq; (destruct qfuel as [|qfuel]; [cbn in Hq; lia|]).
  - cbn [map hd purge_loop]. rewrite Z.eqb_refl. apply wp_ret. exists A, F, []. rewrite app_nil_r in C.
    split; [exact C|]. split; [apply trans_refl|lia].
  - cbn [map hd purge_loop bp]. cbn [map qok bp] in Q. destruct Q as (Q1 & Q2 & Q3).
    assert (HB : In (mkBlk p n d) (Lv ++ mkBlk p n d :: L)) by (apply in_mid; left; reflexivity).
    assert (P0 := core_pos _ _ _ _ _ _ _ _ C HB).
    destruct (core_in _ _ _ _ _ _ _ _ C HB) as (e & HU). assert (W := iv_w _ _ _ _ (co_inv _ _ _ _ _ C)).
    destruct (used_in _ _ _ _ _ _ _ _ W HU) as (sg & I1 & I2 & I3 & I4 & I5 & I6).
    destruct (Z.eqb_spec p 0); [lia|].
    apply wp_bind. apply wp_load. { eapply accb_intro; [apply (w_in_rng _ _ _ _ W _ I1)| |]; cbn; lia. }
    apply wp_bind. apply wp_load. { eapply accb_intro; [apply (w_in_rng _ _ _ _ W _ I1)| |]; cbn; lia. }
    rewrite Q1, Q2. apply wp_bind.
    eapply wp_mono; [eapply (free_core fuel g s _ A F p n d); [exact C|exact HB|exact Hf]|].
    intros _ s1 (A1 & F1 & evs1 & C1 & T1 & B1 & _).
    assert (ND := core_nodup _ _ _ _ _ C).
    rewrite (rm_mid (mkBlk p n d) Lv L ND : rm p _ = _) in C1.
    rewrite map_app in ND. cbn [map bp] in ND. assert (N1 := NoDup_remove_2 _ _ _ ND).
    assert (QN : qok (smem s1) (map bp L)).
    { eapply qok_frame; [|exact Q3]. intros q x Hq' Hx. apply in_map_iff in Hq' as ([q' n' d'] & E & Hq'). cbn [bp] in E. subst q'.
      destruct (core_in _ _ _ _ _ q n' d' C) as (e' & HU'); [apply in_or_app; right; right; exact Hq'|].
      destruct T1 as (_ & _ & _ & _ & T5 & _). destruct (T5 _ _ _ _ HU') as (_ & K).
      { intros ->. apply N1. apply in_or_app. right. apply in_map_iff. exists (mkBlk p n' d'). auto. }
      apply K. destruct (used_in _ _ _ _ _ _ _ _ W HU') as (_ & _ & _ & J & _). lia. }
    eapply wp_mono; [apply (IH qfuel s1 A1 F1); [exact C1|exact QN|lia|cbn [length] in Hq; lia]|].
    intros _ s2 (A2 & F2 & evs2 & C2 & T2 & B2). exists A2, F2, (evs2 ++ evs1).
    split; [exact C2|]. split; [|lia].
    assert (T := trans_trans g _ _ _ _ _ _ _ _ _ _ W (iv_w _ _ _ _ (co_inv _ _ _ _ _ C1)) T1 T2).
    destruct T as (U1 & U2 & U3 & U4 & U5 & U6). split; [exact U1|]. split; [exact U2|]. split; [exact U3|]. split; [exact U4|]. split; [|exact U6].
    intros q n' d' e' HI HO. apply U5; [exact HI|]. intros [K|K]; apply HO; [left; auto|right; exact K].
Qed.

Section Queue.
  Context (fuel : nat) (g : cfg) (s : st) (o : obs) (A : list seg) (F : Z -> list Z).
  Hypothesis GD : Good g s o A F.
  Let s0 := clear_ev s.
  Let C0 : Core g s0 (live o ++ pend o) A F := core_clear _ _ _ _ _ (gd_core _ _ _ _ _ GD).
  Let Q0 : Queue s0 (map bp (pend o)) := gd_queue _ _ _ _ _ GD.

  Lemma step_purge : fuel_ok g o OPurge fuel ->
    wp (exec fuel g OPurge) s0 (post g s o A OPurge (fun q => In q (map bp (pend o)))).
  Proof.
    clearbody C0 Q0. intros HF. cbn [exec]. unfold fuel_ok in HF. cbn [extra] in HF.
    rewrite (held_bytes _ _ (gd_segs _ _ _ _ _ GD)) in HF.
    apply wp_bind. unfold purge_rfq. apply wp_bind. apply wp_getst.
    destruct Q0 as (Q1 & Q2 & Q3). rewrite Q1.
    destruct (pend o) as [|b0 L0] eqn:EP.
    { cbn [map hd]. rewrite Z.eqb_refl. apply wp_ret. apply wp_ret. exists A, F. split; [|split; [auto|auto]].
      constructor; cbn [next live pend segs].
      - exact C0.
      - exact (gd_segs _ _ _ _ _ GD).
      - split; [exact Q1|]. split; [exact Q2|exact I]. }
    assert (HP : 0 < bp b0).
    { destruct b0 as [p n d]. eapply (core_pos _ _ _ _ _ p n d C0). apply in_mid. left. reflexivity. }
    destruct (Z.eqb_spec (hd 0 (map bp (b0 :: L0))) 0) as [E|E]; [cbn in E; lia|]. rewrite <- EP in *.
    apply wp_bind. apply wp_modst.
    assert (CL := core_len _ _ _ _ _ C0). rewrite app_length in CL.
    eapply wp_mono; [eapply (purge_core fuel g (live o) (pend o) fuel (set_rq s0 0 0) A F); [apply core_rq; exact C0|exact Q3|lia|lia]|].
    intros _ s' (A' & F' & evs & C' & T & _). apply wp_ret. destruct T as (T1 & T2 & T3 & T4 & T5 & T6).
    cbn [sevs set_rq clear_ev s0] in T1. rewrite app_nil_r in T1.
    exists A', F'. split; [|split; [exact T5|rewrite T1; exact T6]].
    constructor; cbn [next live pend segs].
    - rewrite app_nil_r. exact C'.
    - rewrite T1, (gd_segs _ _ _ _ _ GD). symmetry. exact T2.
    - split; [exact T3|]. split; [exact T4|exact I].
  Qed.

  (** ** Remote free *)

  (** Adding at the end: one link is changed, the new entry is written. *)
  Lemma qok_snoc m m' l p : qok m l ->
    (forall q x, In q l -> q <> last l 0 -> q <= x < q + 16 -> m' x = m x) ->
    (forall x, l <> [] -> last l 0 + 8 <= x < last l 0 + 16 -> m' x = m x) ->
    (l <> [] -> ld m' (last l 0) 8 = p) -> ld m' p 8 = 0 -> ld m' (p + 8) 8 = p -> NoDup l -> qok m' (l ++ [p]).
  Proof.
    intros Q. induction l as [|q l IH]; intros H1 H2 H3 H4 H5 ND; [cbn; auto|].
    cbn [qok] in Q. destruct Q as (Q1 & Q2 & Q3). inversion ND as [|? ? N1 N2]; subst.
    destruct l as [|q' l].
    - cbn [app qok hd last] in *. split; [apply H3; discriminate|]. split; [|auto].
      rewrite <- Q2 at 2. apply ld_ext. intros x Hx. apply H2; [discriminate|]. cbn in Hx. lia.
    - change (last (q :: q' :: l) 0) with (last (q' :: l) 0) in *.
      assert (NL : q <> last (q' :: l) 0).
      { intros E. apply N1. rewrite E. destruct (@exists_last _ (q' :: l)) as (l0 & y & Ey); [discriminate|]. rewrite Ey, last_last. apply in_or_app. right. left. reflexivity. }
      cbn [app qok]. split; [|split].
      + cbn [hd] in Q1 |- *. rewrite <- Q1. apply ld_ext. intros x Hx. apply (H1 q); [left; reflexivity|exact NL|cbn in Hx; lia].
      + rewrite <- Q2 at 2. apply ld_ext. intros x Hx. apply (H1 q); [left; reflexivity|exact NL|cbn in Hx; lia].
      + apply IH; auto.
        * intros y x Hy. apply H1. right. exact Hy.
        * intros x _. apply H2. discriminate.
        * intros _. apply H3. discriminate.
  Qed.

  Lemma filter_one p n d (l : list blk) : NoDup (map bp l) -> In (mkBlk p n d) l -> filter (fun b => bp b =? p) l = [mkBlk p n d].
  Proof.
    induction l as [|b l IH]; intros N H; [contradiction|]. cbn [map] in N. inversion N as [|? ? N1 N2]; subst. cbn [filter].
    destruct H as [->|H].
    - cbn [bp] in *. rewrite Z.eqb_refl. f_equal. clear IH N N2. induction l as [|b l IH]; [reflexivity|]. cbn [filter map] in *.
      destruct (Z.eqb_spec (bp b) p) as [E|E]; [exfalso; apply N1; left; exact E|]. apply IH. intros K. apply N1. right. exact K.
    - destruct (Z.eqb_spec (bp b) p) as [E|E]; [|exact (IH N2 H)]. exfalso. apply N1. rewrite E. apply in_map_iff. exists (mkBlk p n d). auto.
  Qed.
  Lemma perm_rm p n d (l : list blk) : NoDup (map bp l) -> In (mkBlk p n d) l -> Permutation l (mkBlk p n d :: rm p l).
  Proof.
    intros N H. apply in_split in H as (l1 & l2 & ->). rewrite (rm_mid (mkBlk p n d) l1 l2 N : rm p _ = _).
    apply Permutation_sym. apply Permutation_middle.
  Qed.

  Lemma step_remote p : valid g s o (ORemote p) ->
    wp (exec fuel g (ORemote p)) s0 (post g s o A (ORemote p) (fun q => q = p \/ In q (map bp (pend o)))).
  Proof.
    clearbody C0 Q0. intros (n & d & V). cbn [exec]. assert (W := iv_w _ _ _ _ (co_inv _ _ _ _ _ C0)).
    assert (ND := core_nodup _ _ _ _ _ C0).
    assert (HB : In (mkBlk p n d) (live o ++ pend o)) by (apply in_or_app; left; exact V).
    assert (PNP : forall b, In b (pend o) -> bp b <> p).
    { intros b Hb. eapply nodup_not_other; [exact ND|exact V|exact Hb]. }
    destruct (core_in _ _ _ _ _ _ _ _ C0 HB) as (e & HU).
    destruct (used_zip _ _ _ _ _ HU) as (S1 & b & z & l1 & c & l2 & S2 & EA & Ee).
    assert (W0 := W). rewrite EA in W0.
    assert (UIN : forall q n' d', In (mkBlk q n' d') (live o ++ pend o) -> exists e', In (q, n', d', e') (used A) /\ 0 < q /\
      (forall k, 0 <= k <= 16 -> accb (srng s) q k = true) /\ accb (srng s) (q + 8) 8 = true /\ (forall x, q <= x < q + 16 -> ~ scratch g A x /\ exists sg, In sg A /\ gbase sg <= x < gbase sg + gsize sg) /\ q + 16 < AMAX).
    { intros q n' d' HI. destruct (core_in _ _ _ _ _ _ _ _ C0 HI) as (e' & HU').
      destruct (used_in _ _ _ _ _ _ _ _ W HU') as (sg & I1 & I2 & I3 & I4 & I5 & I6). destruct (w_segok _ _ _ _ W _ I1) as (J1 & J2 & _).
      exists e'. split; [exact HU'|]. split; [lia|]. split; [intros k Hk; eapply accb_intro; [apply (w_in_rng _ _ _ _ W _ I1)|lia|lia]|].
      split; [eapply accb_intro; [apply (w_in_rng _ _ _ _ W _ I1)|lia|lia]|]. split; [|lia].
      intros x Hx. split; [eapply used_not_scratch; [exact W|exact HU'|lia]|]. exists sg. split; [exact I1|lia]. }
    destruct (UIN p n d HB) as (e0 & _ & P0 & AC & AC8 & SC & PMAX).
    assert (BW := W64_val).
    apply wp_bind. unfold rfq_register. destruct (Z.eqb_spec p 0); [lia|].
    apply wp_bind. eapply live_chunk; [exact W0|reflexivity|]. destruct (Z.eqb_spec (p - 1) 0) as [E1|_].
    { destruct (used_in _ _ _ _ _ _ _ _ W HU) as (sg & I1 & I2 & _). destruct (w_segok _ _ _ _ W _ I1) as (J1 & _). lia. }
    apply wp_bind. apply wp_store; [exact AC8|].
    apply wp_bind. apply wp_store; [exact (AC 8 ltac:(lia))|].
    unfold queue_insert. apply wp_bind. apply wp_store; [exact (AC 8 ltac:(lia))|].
    cbv zeta.
    apply wp_bind. apply wp_getst. apply wp_bind. apply wp_modst.
    set (l := map bp (pend o)) in *.
    assert (NDL : NoDup l). { rewrite map_app in ND. apply NoDup_app_remove_l in ND. exact ND. }
    set (m1 := sto (sto (smem s0) (p + 8) 8 p) p 8 0). set (m3 := sto m1 p 8 0).
    assert (E1 : ld m3 p 8 = 0) by (apply ld8_same; lia).
    assert (E2 : ld m3 (p + 8) 8 = p).
    { unfold m3, m1. rewrite !ld_sto_other by (cbn; lia). apply ld8_same. lia. }
    assert (CH : chg (smem s) m3 (fun x => p <= x < p + 16)).
    { unfold m3, m1. do 3 (apply chg_sto; [|intros x Hx; cbn in Hx; lia]). apply chg_refl. }
    assert (LIN : forall q, In q l -> exists n' d', In (mkBlk q n' d') (pend o)).
    { intros q Hq. apply in_map_iff in Hq as ([q' n' d'] & E & Hq). cbn [bp] in E. subst q'. eauto. }
    assert (SEP : forall q, In q l -> q + 16 <= p \/ p + 16 <= q).
    { intros q Hq. destruct (LIN q Hq) as (n' & d' & Hb). assert (NE := PNP _ Hb). cbn [bp] in NE.
      destruct (UIN q n' d' ltac:(apply in_or_app; right; exact Hb)) as (e' & HU' & _).
      destruct (used_in _ _ _ _ _ _ _ _ W HU') as (_ & _ & _ & J & _). destruct (used_in _ _ _ _ _ _ _ _ W HU) as (_ & _ & _ & J' & _).
      destruct (used_two _ _ _ _ _ GD _ _ HU HU') as [K|K]; [congruence|]. unfold esep, eend, eptr in K. cbn [fst snd] in K. lia. }
    assert (SEPL : forall q q', In q l -> In q' l -> q <> q' -> q + 16 <= q' \/ q' + 16 <= q).
    { intros q q' Hq Hq' NE. destruct (LIN q Hq) as (n1 & d1 & Hb1). destruct (LIN q' Hq') as (n2 & d2 & Hb2).
      destruct (UIN q n1 d1 ltac:(apply in_or_app; right; exact Hb1)) as (e' & HU' & _).
      destruct (UIN q' n2 d2 ltac:(apply in_or_app; right; exact Hb2)) as (e'' & HU'' & _).
      destruct (used_in _ _ _ _ _ _ _ _ W HU') as (_ & _ & _ & J & _). destruct (used_in _ _ _ _ _ _ _ _ W HU'') as (_ & _ & _ & J' & _).
      destruct (used_two _ _ _ _ _ GD _ _ HU' HU'') as [K|K]; [congruence|]. unfold esep, eend, eptr in K. cbn [fst snd] in K. lia. }
    assert (FIN : forall m' h, chg (smem s) m' (fun x => p <= x < p + 16 \/ exists q, In q l /\ q <= x < q + 16) ->
      h = hd 0 (l ++ [p]) -> qok m' (l ++ [p]) ->
      forall s', smem s' = m' -> srng s' = srng s -> sbase s' = sbase s -> send s' = send s -> scnt s' = scnt s -> rqh s' = h -> rqt s' = p -> sevs s' = [] ->
      post g s o A (ORemote p) (fun q => q = p \/ In q l) 0 s').
    { intros m' h CH' Eh QQ s' Em Er Eb Ee' Ec Eh' Et Ev.
      assert (Es : s' = set_rq (set_mem s0 m') h p).
      { destruct s' as [x1 x2 x3 x4 x5 x6 x7 x8]. cbn in *. subst. reflexivity. }
      exists A, F. split; [|split].
      - constructor; cbn [next live pend segs].
        + rewrite Es. apply core_rq. apply core_write.
          * eapply core_perm; [exact C0|]. rewrite (filter_one p n d (live o)).
            -- eapply Permutation_trans; [eapply Permutation_app_tail; apply perm_rm; [|exact V]|].
               ++ rewrite map_app in ND. apply NoDup_app_remove_r in ND. exact ND.
               ++ cbn [app]. rewrite app_assoc. apply Permutation_cons_append.
            -- rewrite map_app in ND. apply NoDup_app_remove_r in ND. exact ND.
            -- exact V.
          * eapply chg_weaken; [exact CH'|]. intros x [Hx|(q & Hq & Hx)]; [exact (proj1 (SC x Hx))|].
            destruct (LIN q Hq) as (n' & d' & Hb). destruct (UIN q n' d' ltac:(apply in_or_app; right; exact Hb)) as (_ & _ & _ & _ & _ & K & _).
            exact (proj1 (K x Hx)).
        + rewrite Ev. cbn [fold_right]. exact (gd_segs _ _ _ _ _ GD).
        + rewrite (filter_one p n d (live o)); [|rewrite map_app in ND; apply NoDup_app_remove_r in ND; exact ND|exact V].
          rewrite map_app. cbn [map bp]. fold l. split; [congruence|]. split; [rewrite last_last; exact Et|rewrite Em; exact QQ].
      - intros q n' d' e' HI HO. split; [exact HI|]. intros x Hx. rewrite Em. destruct (CH' x) as [K|K]; [exact K|]. exfalso.
        assert (SP : forall v, In v (map bp (live o ++ pend o)) -> v <> q -> ~ v <= x < v + 16).
        { intros v Hv NE Hx'. apply in_map_iff in Hv as ([v' n2 d2] & E & Hv). cbn [bp] in E. subst v'.
          destruct (UIN v n2 d2 Hv) as (e2 & HU2 & _). destruct (used_in _ _ _ _ _ _ _ _ W HU2) as (_ & _ & _ & J & _).
          destruct (used_two _ _ _ _ _ GD _ _ HU2 HI) as [K2|K2]; [congruence|]. unfold esep, eend, eptr in K2. cbn [fst snd] in K2. lia. }
        destruct K as [K|(v & Hv & K)].
        + apply (SP p); [apply in_map_iff; exists (mkBlk p n d); auto|intros ->; apply HO; auto|exact K].
        + apply (SP v); [rewrite map_app; apply in_or_app; right; exact Hv|intros ->; apply HO; auto|exact K].
      - intros x Hx. rewrite Em. destruct (CH' x) as [K|K]; [exact K|]. exfalso.
        assert (IN : exists sg, In sg A /\ gbase sg <= x < gbase sg + gsize sg).
        { destruct K as [K|(q & Hq & K)]; [exact (proj2 (SC x K))|].
          destruct (LIN q Hq) as (n' & d' & Hb). destruct (UIN q n' d' ltac:(apply in_or_app; right; exact Hb)) as (_ & _ & _ & _ & _ & K2 & _).
          exact (proj2 (K2 x K)). }
        destruct IN as (sg & I1 & I2). apply (Hx (gbase sg) (gsize sg)); [left; exact (w_in_rng _ _ _ _ W _ I1)|exact I2]. }
    destruct Q0 as (Q1 & Q2 & Q3). cbn [rqt set_mem]. rewrite Q2.
    destruct l as [|q0 l'] eqn:EL.
    - cbn [last]. rewrite Z.eqb_refl. apply wp_modst. apply wp_ret.
      apply (FIN m3 p); try reflexivity.
      + eapply chg_weaken; [exact CH|]. auto.
      + cbn [app qok hd]. auto.
    - rewrite <- EL in *. assert (HNE : l <> []) by (rewrite EL; discriminate).
      destruct (@exists_last _ l HNE) as (l0 & y & Ey).
      assert (YL : last l 0 = y) by (rewrite Ey; apply last_last).
      assert (YI : In y l) by (rewrite Ey; apply in_or_app; right; left; reflexivity).
      destruct (LIN y YI) as (n' & d' & Hb). destruct (UIN y n' d' ltac:(apply in_or_app; right; exact Hb)) as (e' & HU' & Y0 & YA & _).
      rewrite YL. destruct (Z.eqb_spec y 0); [lia|]. apply wp_store; [exact (YA 8 ltac:(lia))|]. apply wp_ret.
      specialize (SEP y YI) as SY.
      apply (FIN (sto m3 y 8 p) (rqh s0)); try reflexivity.
      + apply chg_sto; [eapply chg_weaken; [exact CH|]; auto|]. intros x Hx. right. exists y. split; [exact YI|cbn in Hx; lia].
      + rewrite Q1, EL. reflexivity.
      + eapply qok_snoc; [exact Q3| | | | | |exact NDL]; fold l; rewrite ?YL.
        * intros q x Hq Nq Hx. destruct (SEPL q y Hq YI Nq) as [K|K]; (rewrite sto_other by (cbn; lia));
            (destruct (CH x) as [K2|K2]; [exact K2|]); specialize (SEP q Hq); lia.
        * intros x _ Hx. rewrite sto_other by (cbn; lia). destruct (CH x) as [K2|K2]; [exact K2|]. lia.
        * intros _. apply ld8_same. lia.
        * rewrite ld_sto_other by (cbn; lia). exact E1.
        * rewrite ld_sto_other by (cbn; lia). exact E2.
  Qed.
End Queue.
