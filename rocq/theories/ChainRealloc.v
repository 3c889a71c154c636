(** Reallocation preserves the invariant and moves the content. *)
From Verif Require Import Word Res Mem SizeClassModel SizeClassProofs ChainModel Wp ChainInv ChainZip ChainList ChainFl ChainPrim ChainFind ChainSplit ChainMerge ChainOps ChainAlloc ChainFree ChainSpec ChainCore ChainCoreFree ChainStep.
From Coq Require Import ZArith List Bool Lia Permutation.
Import ListNotations.
Open Scope Z_scope.

Lemma inv_us_us g s F S1 b z l1 c p n n' d l2 S2 :
  Inv g s (S1 ++ mkSeg b z (l1 ++ (c, Us p n d) :: l2) :: S2) F -> 1 <= n' -> p + n' <= b + 32 + tot l1 + c ->
  Inv g s (S1 ++ mkSeg b z (l1 ++ (c, Us p n' d) :: l2) :: S2) F.
Proof.
  intros IV Hn1 Hn2. assert (W := iv_w _ _ _ _ IV). set (a := b + 32 + tot l1) in *.
  assert (HW := world_chunk _ _ _ _ _ _ _ _ _ _ _ a W eq_refl).
  destruct HW as (H1 & H2 & H3 & (K1 & K2 & K3 & K4 & K5 & K6) & H7 & H8 & H9 & H10 & H11 & H12 & _).
  rewrite (set_mem_id s).
  eapply (inv_renof g s F S1 b z l1 [(c, Us p n d)] [(c, Us p n' d)] l2 S2 a); auto.
  - discriminate.
  - repeat constructor; discriminate.
  - repeat constructor; discriminate.
  - cbn [cks]. split; [lia|]. split; [lia|]. split; [exact H3|]. split; [|exact I].
    cbn [kok]. split; [exact K1|]. split; [exact Hn1|]. split; [exact Hn2|]. split; [exact K4|]. split; [exact K5|exact K6].
  - apply chg_refl.
  - cbn [tot lastsz]. replace (a + (c + 0) + 8) with (a + c + 8) by lia. exact H12.
Qed.

Lemma used_disj g r m A p n d e q n' d' e' x : World g r m A -> In (p, n, d, e) (used A) -> In (q, n', d', e') (used A) ->
  p <> q -> p <= x < e -> q <= x < e' -> False.
Proof.
  intros W H1 H2 NE X1 X2. assert (S := used_sep _ _ _ _ W).
  destruct (ForallOrdPairs_In S _ _ H1 H2) as [K|[K|K]]; [congruence| |]; unfold esep, eend, eptr in K; cbn [fst snd] in K; lia.
Qed.
Lemma used_gap g r m A p n d e q n' d' e' : World g r m A -> In (p, n, d, e) (used A) -> In (q, n', d', e') (used A) ->
  p <> q -> e <= q - 16 \/ e' <= p - 16.
Proof.
  intros W H1 H2 NE. assert (S := used_sep _ _ _ _ W).
  destruct (ForallOrdPairs_In S _ _ H1 H2) as [K|[K|K]]; [congruence| |]; unfold esep, eend, eptr in K; cbn [fst snd] in K; lia.
Qed.

Lemma resize_other p n l : (forall b, In b l -> bp b <> p) -> resize p n l = l.
Proof.
  intros H. unfold resize. rewrite <- (map_id l) at 2. apply map_ext_in. intros b Hb.
  destruct (Z.eqb_spec (bp b) p) as [E|E]; [exfalso; exact (H b Hb E)|reflexivity].
Qed.

(** Giving another size to a block that stays in place. *)
Lemma core_resize g s B A F p n n' d e : Core g s B A F -> In (p, n, d, e) (used A) -> 1 <= n' -> p + n' <= e ->
  exists A', Core g s (resize p n' B) A' F /\ map segr A' = map segr A /\
    forall q m dd ee, In (q, m, dd, ee) (used A) -> q <> p -> In (q, m, dd, ee) (used A').
Proof.
  intros C HU Hn1 Hn2. assert (IV := co_inv _ _ _ _ _ C). assert (W := iv_w _ _ _ _ IV).
  destruct (used_zip _ _ _ _ _ HU) as (S1 & b & z & l1 & c & l2 & S2 & EA & Ee). set (a := b + 32 + tot l1) in *.
  set (A' := S1 ++ mkSeg b z (l1 ++ (c, Us p n' d) :: l2) :: S2).
  assert (HS : In (mkSeg b z (l1 ++ (c, Us p n d) :: l2)) A) by (rewrite EA; apply in_mid; left; reflexivity).
  assert (ESG : map segr A' = map segr A) by (rewrite EA; unfold A'; rewrite !map_app; reflexivity).
  assert (PP : Permutation (used A) ((p, n, d, e) :: rest_used S1 b l1 e l2 S2)).
  { rewrite EA. change (l1 ++ (c, Us p n d) :: l2) with (l1 ++ [(c, Us p n d)] ++ l2).
    eapply Permutation_trans; [apply (used_perm S1 b z l1 _ l2 S2 a e); [reflexivity|cbn [tot]; lia]|].
    cbn [used_from app]. rewrite <- Ee. apply Permutation_refl. }
  assert (PP' : Permutation (used A') ((p, n', d, e) :: rest_used S1 b l1 e l2 S2)).
  { unfold A'. change (l1 ++ (c, Us p n' d) :: l2) with (l1 ++ [(c, Us p n' d)] ++ l2).
    eapply Permutation_trans; [apply (used_perm S1 b z l1 _ l2 S2 a e); [reflexivity|cbn [tot]; lia]|].
    cbn [used_from app]. rewrite <- Ee. apply Permutation_refl. }
  assert (ND := used_nodup _ _ _ _ W). apply (Permutation_NoDup (Permutation_map eptr PP)) in ND.
  cbn [map] in ND. inversion ND as [|? ? N1 _]; subst x l.
  assert (CKS : forall c0 k, In (c0, k) (l1 ++ (c, Us p n' d) :: l2) -> exists k', In (c0, k') (l1 ++ (c, Us p n d) :: l2) /\ (k = Fr <-> k' = Fr) /\ (k = Lk -> k' = Lk)).
  { intros c0 k HI. apply in_mid in HI as [HI|HI].
    - injection HI as -> ->. exists (Us p n d). split; [apply in_mid; left; reflexivity|]. split; [split; discriminate|discriminate].
    - exists k. split; [apply in_mid; right; exact HI|]. tauto. }
  exists A'. split; [|split; [exact ESG|]].
  - constructor.
    + unfold A'. rewrite EA in IV. eapply inv_us_us; [exact IV|exact Hn1|]. fold a. lia.
    + eapply Permutation_trans; [apply Permutation_map; exact PP'|].
      assert (PB := co_live _ _ _ _ _ C). apply (Permutation_map (fun b => if bp b =? p then mkBlk p n' (bd b) else b)) in PB.
      fold (resize p n' B) in PB. eapply Permutation_trans; [|exact PB].
      apply Permutation_sym. eapply Permutation_trans; [apply Permutation_map; apply Permutation_map; exact PP|].
      cbn [map]. change (bp (strip (p, n, d, e))) with p. rewrite Z.eqb_refl. apply perm_skip.
      fold (resize p n' (map strip (rest_used S1 b l1 e l2 S2))). rewrite resize_other; [apply Permutation_refl|].
      intros b0 Hb E. apply in_map_iff in Hb as (v & <- & Hv). apply N1. change (In p (map eptr (rest_used S1 b l1 e l2 S2))). rewrite <- E.
      change (bp (strip v)) with (eptr v). apply in_map. exact Hv.
    + intros sg HI. unfold A' in HI. apply in_mid in HI as [->|HI]; [exact (co_al _ _ _ _ _ C _ HS)|].
      apply (co_al _ _ _ _ _ C). rewrite EA. apply in_mid. right. exact HI.
    + intros Hm sg HI. unfold A' in HI. apply in_mid in HI as [->|HI].
      * assert (N := co_merge _ _ _ _ _ C Hm _ HS). cbn [gchunks] in *. apply noadj_app in N as (M1 & M2 & M3).
        apply noadj_app. split; [exact M1|]. split; [exact M2|exact M3].
      * apply (co_merge _ _ _ _ _ C Hm). rewrite EA. apply in_mid. right. exact HI.
    + intros sg c0 HI HL. unfold A' in HI. apply in_mid in HI as [->|HI].
      * cbn [gchunks] in HL. destruct (CKS _ _ HL) as (k' & K1 & _ & K2). rewrite (K2 eq_refl) in K1. exact (co_lk _ _ _ _ _ C _ _ HS K1).
      * apply (co_lk _ _ _ _ _ C sg); [|exact HL]. rewrite EA. apply in_mid. right. exact HI.
    + intros Hc. destruct (co_src _ _ _ _ _ C Hc) as (J1 & J2 & J3). split; [exact J1|].
      split; [rewrite J2, <- (map_length segr A), <- ESG, map_length; reflexivity|].
      intros sg HI. unfold A' in HI. apply in_mid in HI as [->|HI].
      * destruct (J3 _ HS) as (J4 & J5). split; [exact J4|]. cbn [gsize gchunks] in *. destruct J5 as [(p0 & n0 & d0 & J)|(J5 & J6)].
        -- left. destruct l1 as [|x l1]; [|destruct l1; discriminate]. injection J as E1 E2 E3 E4 E5. exists p, n', d. rewrite E1, E5. reflexivity.
        -- right. split; [exact J5|]. intros c0 k HI HK. destruct (CKS _ _ HI) as (k' & K1 & K2 & _). apply (J6 c0 k' K1). tauto.
      * apply J3. rewrite EA. apply in_mid. right. exact HI.
    + intros Hc Hm sg HI. unfold A' in HI. apply in_mid in HI as [->|HI].
      * exists (c, Us p n' d). cbn [gchunks snd]. split; [apply in_mid; left; reflexivity|discriminate].
      * apply (co_busy _ _ _ _ _ C Hc Hm). rewrite EA. apply in_mid. right. exact HI.
    + intros Hc. destruct (co_base _ _ _ _ _ C Hc) as [(K1 & K2)|(A0 & sg & K1 & K2 & K3)].
      { rewrite K1 in EA. destruct S1; discriminate. }
      right. clear - K1 K2 K3 EA A'. destruct S2 as [|sg2 S2] using rev_ind.
      * exists S1, (mkSeg b z (l1 ++ (c, Us p n' d) :: l2)). split; [reflexivity|].
        rewrite K1 in EA. apply app_inj_tail in EA as (_ & E). rewrite K2, K3, E. auto.
      * exists (S1 ++ mkSeg b z (l1 ++ (c, Us p n' d) :: l2) :: S2), sg2.
        split; [unfold A'; rewrite <- app_assoc; reflexivity|].
        rewrite K1 in EA. replace (S1 ++ mkSeg b z (l1 ++ (c, Us p n d) :: l2) :: S2 ++ [sg2]) with ((S1 ++ mkSeg b z (l1 ++ (c, Us p n d) :: l2) :: S2) ++ [sg2]) in EA by (rewrite <- app_assoc; reflexivity).
        apply app_inj_tail in EA as (_ & E). subst sg2. auto.
  - intros q m dd ee HI Hq. apply Permutation_in with (1 := PP) in HI. apply Permutation_in with (1 := Permutation_sym PP').
    destruct HI as [HI|HI]; [congruence|right; exact HI].
Qed.

Section Realloc.
  Context (fuel : nat) (g : cfg) (s : st) (o : obs) (A : list seg) (F : Z -> list Z).
  Hypothesis GD : Good g s o A F.
  Let s0 := clear_ev s.
  Let C0 : Core g s0 (live o ++ pend o) A F := core_clear _ _ _ _ _ (gd_core _ _ _ _ _ GD).
  Let Q0 : Queue s0 (map bp (pend o)) := gd_queue _ _ _ _ _ GD.

  (** The first bytes of a moved block. *)
  Definition moved (p n r : Z) (s' : st) : Prop :=
    p <> 0 -> r <> 0 -> forall m d e i, In (p, m, d, e) (used A) -> 0 <= i < Z.min (e - p) n ->
    smem s' (r + i) = smem s (p + i).

  (** Why a null pointer is returned for a non null size. *)
  Definition refused (d n : Z) (gr : option Z) : Prop :=
    (csrc g = true /\ gr = None /\ (huge d n \/
       forall a c, In (a, c) (frees A) -> c <= MACRO_BLOC -> c < calc_chunk_size (padsz d n))) \/
    (csrc g = false /\ forall a c, In (a, c) (frees A) -> c <= MACRO_BLOC -> c < calc_chunk_size (padsz d n)).

  (** What is asked to the source and what is given back. *)
  Definition srcok (h p n : Z) (gr : option Z) (evs : list ev) : Prop :=
    (forall b z, In (EGet b z) evs -> csrc g = true /\ gr = Some b /\ z = ask_size h n) /\
    (forall b, In (EPut b) evs -> csrc g = true /\ exists z, In (b, z) (segs o) /\ b <= p < b + z).

  Lemma srcok_nil h p n gr : srcok h p n gr [].
  Proof. split; intros; contradiction. Qed.
  Lemma srcok_alloc h p n gr evs (X Y : Prop) :
    (evs = [] /\ X) \/ (exists b, csrc g = true /\ gr = Some b /\ evs = [EGet b (ask_size h n)] /\ Y) -> srcok h p n gr evs.
  Proof.
    intros [(-> & _)|(b & H1 & H2 & -> & _)]; [apply srcok_nil|]. split; [|intros b0 [K|[]]; discriminate].
    intros b0 z0 [K|[]]. injection K as <- <-. auto.
  Qed.
  Lemma srcok_free h p n gr evs A' e a : freed g A A' p e a evs -> srcok h p n gr evs.
  Proof.
    intros [(H1 & b & z & H2 & H3 & ->)|[(_ & -> & _)|(-> & _)]]; [|apply srcok_nil|apply srcok_nil].
    split; [intros b0 z0 [K|[]]; discriminate|]. intros b0 [K|[]]. injection K as <-. split; [exact H1|]. exists z.
    rewrite (gd_segs _ _ _ _ _ GD). auto.
  Qed.

  (** Size of the block returned, and when it stays in place. *)
  Definition keepable (n u : Z) : Prop := n <= u /\ u - n <= cthresh g /\ u - n <= u / cfactor g.
  Definition sized (h p n r : Z) (s' : st) : Prop :=
    (r <> 0 -> r <> p -> exists u, usable s' r u /\ fits g h n u) /\
    (p <> 0 -> n <> 0 -> exists u0, usable s p u0 /\ (r = p <-> keepable n u0) /\ (r = p -> usable s' r u0)).

  Lemma used_usable s1 A1 p n d e : World g (srng s1) (smem s1) A1 -> In (p, n, d, e) (used A1) -> usable s1 p (e - p).
  Proof.
    intros W H. assert (US : wp (usable_size p) s1 (fun u s' => u = e - p /\ s' = s1)) by (eapply usable_spec; [exact W|exact H|auto]).
    unfold wp in US. unfold usable. destruct (usable_size p s1) as [[u s2]| | |]; try contradiction. destruct US as (-> & ->). reflexivity.
  Qed.

  Lemma step_realloc h p n gr : let c := ORealloc h p n gr in
    valid g s o c -> fuel_ok g o c fuel ->
    wp (exec fuel g c) s0 (fun r s' => post g s o A c (fun q => q = p) r s' /\ moved p n r s' /\
      (r = 0 -> n = 0 \/ refused h n gr) /\ srcok h p n gr (sevs s') /\ sized h p n r s').
  Proof.
    intros c (V1 & V2 & V3) HF. subst c. cbn [exec]. unfold fuel_ok in HF. cbn [extra] in HF.
    rewrite (held_bytes _ _ (gd_segs _ _ _ _ _ GD)) in HF.
    assert (AS : 0 <= if csrc g then ask_size h n else 0).
    { destruct (csrc g); [|lia]. destruct V2 as (R1 & R2 & _). apply pow2_bd in R2. assert (K := ask_size_min h n R1 ltac:(lia)). lia. }
    unfold chain_realloc.
    destruct (Z.eqb_spec p 0) as [Ep|Ep].
    { subst p. cbn [andb]. destruct (Z.eqb_spec n 0) as [En|En].
      { apply wp_ret. split; [|split; [intros K; contradiction|split; [auto|split; [apply srcok_nil|split; intros K; contradiction]]]].
        exists A, F. split; [|split; [auto|auto]]. constructor; cbn [next live pend segs]; [exact C0|exact (gd_segs _ _ _ _ _ GD)|exact Q0]. }
      eapply wp_mono; [eapply (alloc_core fuel g s0 _ A F o gr h n); [exact C0|exact (gd_segs _ _ _ _ _ GD)|exact V2|exact HF]|].
      intros r s' (A' & F' & evs & C' & T & _ & R0 & RN).
      assert (T' := T). destruct T as (T1 & T2 & T3 & T4 & T5 & T6). cbn [sevs clear_ev s0] in T1. rewrite app_nil_r in T1.
      split; [|split; [intros K; contradiction|split; [|split]]].
      - exists A', F'. split; [|split].
        + constructor; cbn [next live pend segs].
          * rewrite Z.eqb_refl. destruct (r =? 0); exact C'.
          * rewrite T1, (gd_segs _ _ _ _ _ GD). symmetry. exact T2.
          * eapply queue_trans; [exact C0|exact Q0|exact T'|auto].
        + intros q m dd e HI HO. exact (T5 q m dd e HI ltac:(auto)).
        + rewrite T1. exact T6.
      - intros Er. destruct (R0 Er) as (_ & _ & _ & [K|K]); [left; exact K|right; exact K].
      - rewrite T1. destruct (Z.eq_dec r 0) as [Er|Er]; [destruct (R0 Er) as (K & _); rewrite <- T1, K; apply srcok_nil|].
        destruct (RN Er) as (_ & _ & _ & K). eapply srcok_alloc. exact K.
      - split; [|intros K; contradiction]. intros Er _. destruct (RN Er) as (_ & _ & (e & K1 & K2) & _). exists (e - r). split; [|exact K2].
        eapply used_usable; [exact (iv_w _ _ _ _ (co_inv _ _ _ _ _ C'))|exact K1]. }
    cbn [andb].
    destruct V1 as [V1|(m0 & d0 & V1 & Vd)]; [contradiction|].
    assert (PNP : forall b, In b (pend o) -> bp b <> p).
    { intros b Hb. eapply nodup_not_other; [eapply core_nodup; exact C0|exact V1|exact Hb]. }
    destruct (Z.eqb_spec n 0) as [En|En].
    { subst n. apply wp_bind. eapply wp_mono; [eapply (free_core fuel g s0 _ A F p m0 d0); [exact C0|apply in_or_app; left; exact V1|lia]|].
      intros _ s' (A' & F' & evs & C' & T & _ & _ & e' & a' & _ & _ & _ & _ & FR). apply wp_ret.
      assert (T' := T). destruct T as (T1 & T2 & T3 & T4 & T5 & T6). cbn [sevs clear_ev s0] in T1. rewrite app_nil_r in T1.
      split; [|split; [intros _ K; contradiction|split; [auto|split; [rewrite T1; eapply srcok_free; exact FR|split; [intros K; contradiction|intros _ K; contradiction]]]]].
      exists A', F'. split; [|split].
      - constructor; cbn [next live pend segs].
        + destruct (Z.eqb_spec p 0); [contradiction|]. rewrite Z.eqb_refl. rewrite <- (rm_pend _ _ _ _ _ _ _ _ C0 V1). exact C'.
        + rewrite T1, (gd_segs _ _ _ _ _ GD). symmetry. exact T2.
        + eapply queue_trans; [exact C0|exact Q0|exact T'|exact PNP].
      - exact T5.
      - rewrite T1. exact T6. }
    (* in place or moved *)
    assert (IV := co_inv _ _ _ _ _ C0). assert (W := iv_w _ _ _ _ IV).
    destruct (core_in _ _ _ _ _ p m0 d0 C0) as (e & HU); [apply in_or_app; left; exact V1|].
    destruct (used_zip _ _ _ _ _ HU) as (S1 & b & z & l1 & c & l2 & S2 & EA & Ee).
    assert (W0 := W). rewrite EA in W0.
    assert (HC := world_chunk _ _ _ _ _ _ _ _ _ _ _ _ W0 eq_refl).
    destruct HC as (H1 & H2 & _ & (K1 & K2 & K3 & K4 & K5 & (K6 & _)) & H7 & H8 & H9 & H10 & _). specialize (K6 Vd).
    assert (BW := W64_val). assert (BS := S63_val).
    assert (V2' := V2). destruct V2' as (R1 & R2 & R3 & R45). change (2 ^ 63) with S63 in R3.
    assert (R2' := pow2_bd _ R2).
    apply wp_bind. eapply live_chunk; [exact W0|reflexivity|].
    destruct (Z.eqb_spec (p - 1) 0); [lia|].
    apply wp_bind. eapply live_unpad; [exact W0|reflexivity|].
    apply wp_bind. eapply wp_vsize; [exact W0|reflexivity|].
    cbv zeta. unfold SZ_LARGE. rewrite (sub64_small c 16) by lia.
    apply wp_bind.
    assert (KEEP : wp (if (n <=? c - 16) && (sub64 (c - 16) n <=? cthresh g)
                       then if cfactor g =? 0 then ub else ret (sub64 (c - 16) n <=? (c - 16) / cfactor g) else ret false) s0
              (fun keep s' => s' = s0 /\ (keep = true <-> keepable n (c - 16)))).
    { destruct ((n <=? c - 16) && (sub64 (c - 16) n <=? cthresh g)) eqn:EK.
      - destruct (Z.eqb_spec (cfactor g) 0); [lia|]. apply wp_ret. split; [reflexivity|]. unfold keepable. rewrite sub64_small in * by lia. lia.
      - apply wp_ret. split; [reflexivity|]. unfold keepable. split; [discriminate|]. intros (L1 & L2 & L3). exfalso. rewrite sub64_small in EK by lia. lia. }
    assert (UE0 : usable s0 p (c - 16)) by (replace (c - 16) with (e - p) by lia; eapply used_usable; [exact W|exact HU]).
    assert (UE : usable s p (c - 16)) by (replace (c - 16) with (e - p) by lia; eapply used_usable; [exact W|exact HU]).
    eapply wp_mono; [exact KEEP|]. cbv beta. clear KEEP. intros keep s1 (-> & HK).
    destruct keep.
    { destruct HK as (HK' & _). specialize (HK' eq_refl). assert (HK : n <= c - 16) by apply HK'. apply wp_ret.
      destruct (core_resize g s0 _ A F p m0 n d0 e C0 HU ltac:(lia) ltac:(lia)) as (A' & C' & E' & U').
      split; [|split; [|split; [intros K; contradiction|split; [apply srcok_nil|]]]].
      - exists A', F. split; [|split].
        + constructor; cbn [next live pend segs].
          * destruct (Z.eqb_spec p 0); [contradiction|]. destruct (Z.eqb_spec n 0); [contradiction|]. rewrite Z.eqb_refl.
            replace (resize p n (live o) ++ pend o) with (resize p n (live o ++ pend o)); [exact C'|].
            unfold resize at 1. rewrite map_app. f_equal. apply resize_other. exact PNP.
          * cbn [sevs clear_ev s0 fold_right]. rewrite E'. exact (gd_segs _ _ _ _ _ GD).
          * exact Q0.
        + intros q m dd ee HI HO. split; [exact (U' _ _ _ _ HI HO)|]. intros x Hx. reflexivity.
        + intros x Hx. reflexivity.
      - intros _ _ m d e0 i _ _. reflexivity.
      - split; [intros _ K; contradiction|]. intros _ _. exists (c - 16). split; [exact UE|].
        split; [|intros _; exact UE0]. split; [intros _; exact HK'|reflexivity]. }
    assert (NK : ~ keepable n (c - 16)) by (intros K; apply HK in K; discriminate).
    apply wp_bind.
    eapply wp_mono; [eapply (alloc_core fuel g s0 _ A F o gr h n); [exact C0|exact (gd_segs _ _ _ _ _ GD)|exact V2|exact HF]|].
    intros r s1 (A1 & F1 & evs1 & C1 & T1 & B1 & R0 & RN).
    destruct (Z.eqb_spec r 0) as [Er|Er].
    { (* refused: the old block is freed *)
      destruct (R0 Er) as (-> & -> & -> & RW).
      apply wp_bind. apply wp_ret.
      apply wp_bind. eapply wp_mono; [eapply (free_core fuel g s0 _ A F p m0 d0); [exact C0|apply in_or_app; left; exact V1|lia]|].
      intros _ s' (A' & F' & evs & C' & T & _ & _ & e' & a' & _ & _ & _ & _ & FR). apply wp_ret.
      assert (T' := T). destruct T as (U1 & U2 & U3 & U4 & U5 & U6). cbn [sevs clear_ev s0] in U1. rewrite app_nil_r in U1.
      subst r. split; [|split; [intros _ K; contradiction|split; [|split; [|split; [intros K; contradiction|intros _ _; exists (c - 16); split; [exact UE|split; [split; [intros K; congruence|intros K; contradiction]|intros K; congruence]]]]]]].
      - exists A', F'. split; [|split].
        + constructor; cbn [next live pend segs].
          * destruct (Z.eqb_spec p 0); [contradiction|]. destruct (Z.eqb_spec n 0); [contradiction|].
            destruct (Z.eqb_spec 0 p); [congruence|]. rewrite Z.eqb_refl. rewrite <- (rm_pend _ _ _ _ _ _ _ _ C0 V1). exact C'.
          * rewrite U1, (gd_segs _ _ _ _ _ GD). symmetry. exact U2.
          * eapply queue_trans; [exact C0|exact Q0|exact T'|exact PNP].
        + exact U5.
        + rewrite U1. exact U6.
      - intros _. destruct RW as [RW|RW]; [contradiction|right; exact RW].
      - rewrite U1. eapply srcok_free; exact FR. }
    destruct (RN Er) as (_ & RF & (e1 & HR & HFT) & RE).
    assert (W1 := iv_w _ _ _ _ (co_inv _ _ _ _ _ C1)).
    assert (T1' := T1). destruct T1 as (T1a & T1b & T1c & T1d & T1e & T1f).
    destruct (T1e p m0 d0 e HU ltac:(auto)) as (HU1 & HP1).
    assert (NRP : r <> p) by (intros ->; exact (RF _ _ _ HU)).
    destruct (used_in _ _ _ _ _ _ _ _ W1 HU1) as (sgp & I1 & I2 & I3 & I4 & I5 & I6).
    destruct (used_in _ _ _ _ _ _ _ _ W1 HR) as (sgr & L1 & L2 & L3 & L4 & L5 & L6).
    set (cnt := if c - 16 <? n then c - 16 else n).
    assert (HCN : 0 <= cnt /\ p + cnt <= e /\ r + cnt <= e1 /\ cnt = Z.min (e - p) n) by (unfold cnt; destruct (c - 16 <? n) eqn:EE; lia).
    assert (SEP : e <= r - 16 \/ e1 <= p - 16).
    { apply (used_gap _ _ _ _ _ _ _ _ _ _ _ _ W1 HU1 HR). congruence. }
    apply wp_bind. unfold memcpy at 1. unfold wp at 1.
    assert (MC : accb (srng s1) p cnt && accb (srng s1) r cnt && ((p + cnt <=? r) || (r + cnt <=? p) || (cnt =? 0)) = true).
    { rewrite (accb_intro _ (gbase sgp) (gsize sgp)) by (try apply (w_in_rng _ _ _ _ W1 _ I1); lia).
      rewrite (accb_intro _ (gbase sgr) (gsize sgr)) by (try apply (w_in_rng _ _ _ _ W1 _ L1); lia). cbn [andb]. lia. }
    rewrite MC.
    set (m2 := fun x => if (r <=? x) && (x <? r + cnt) then smem s1 (p + (x - r)) else smem s1 x).
    assert (CH2 : chg (smem s1) m2 (fun x => r <= x < e1)).
    { intros x. unfold m2. destruct ((r <=? x) && (x <? r + cnt)) eqn:EE; [right; destruct HCN as (_ & _ & N3 & _); clear - EE N3; lia|left; reflexivity]. }
    assert (C2 : Core g (set_mem s1 m2) (mkBlk r n h :: live o ++ pend o) A1 F1).
    { apply core_write; [exact C1|]. eapply chg_weaken; [exact CH2|]. intros x Hx. eapply used_not_scratch; [exact W1|exact HR|exact Hx]. }
    assert (T2 : trans s1 A1 (set_mem s1 m2) A1 (fun q => q = r) []).
    { split; [reflexivity|]. split; [reflexivity|]. split; [reflexivity|]. split; [reflexivity|]. split.
      - intros q m dd ee HI HO. split; [exact HI|]. intros x Hx. cbn [smem set_mem]. destruct (CH2 x) as [K|K]; [exact K|]. exfalso.
        exact (used_disj _ _ _ _ _ _ _ _ _ _ _ _ _ W1 HI HR HO Hx K).
      - intros x Hx. cbn [smem set_mem]. destruct (CH2 x) as [K|K]; [exact K|]. exfalso.
        apply (Hx (gbase sgr) (gsize sgr)); [left; exact (w_in_rng _ _ _ _ W1 _ L1)|clear - K L2 L6; lia]. }
    assert (HP2 : forall i, 0 <= i < cnt -> m2 (r + i) = smem s (p + i)).
    { intros i Hi. unfold m2. replace ((r <=? r + i) && (r + i <? r + cnt)) with true by lia.
      replace (p + (r + i - r)) with (p + i) by lia. apply HP1. lia. }
    apply wp_bind. eapply wp_mono; [eapply (free_core fuel g (set_mem s1 m2) _ A1 F1 p m0 d0); [exact C2|right; apply in_or_app; left; exact V1|clear - B1 HF; lia]|].
    intros _ s3 (A3 & F3 & evs3 & C3 & T3 & _ & _ & e' & a' & _ & _ & _ & _ & FR). apply wp_ret.
    assert (W2 := iv_w _ _ _ _ (co_inv _ _ _ _ _ C2)).
    destruct T3 as (T3a & T3b & T3c & T3d & T3e & T3f).
    assert (T12 := trans_trans g _ _ _ _ _ _ _ _ _ _ W W1 T1' T2).
    assert (T13 := trans_trans g _ _ _ _ _ _ _ _ _ _ W W2 T12 (conj T3a (conj T3b (conj T3c (conj T3d (conj T3e T3f)))))).
    assert (T13' := T13). destruct T13' as (U1 & U2 & U3 & U4 & U5 & U6). cbn [sevs clear_ev s0 app] in U1. rewrite app_nil_r in U1.
    assert (NRU : forall b, In b (pend o) -> bp b <> r).
    { intros [q nn dd] Hb Eq. cbn [bp] in Eq. subst q. destruct (core_in _ _ _ _ _ r nn dd C0) as (ee & HH); [apply in_or_app; right; exact Hb|].
      exact (RF _ _ _ HH). }
    split; [|split; [|split; [intros K; contradiction|split]]].
    - exists A3, F3. split; [|split].
      + constructor; cbn [next live pend segs].
        * destruct (Z.eqb_spec p 0); [contradiction|]. destruct (Z.eqb_spec n 0); [contradiction|].
          destruct (Z.eqb_spec r p); [contradiction|]. destruct (Z.eqb_spec r 0); [contradiction|].
          cbn [app]. rewrite <- (rm_pend _ _ _ _ _ _ _ _ C0 V1). cbn [rm filter bp] in C3.
          destruct (Z.eqb_spec r p); [contradiction|]. cbn [negb] in C3. exact C3.
        * rewrite U1, (gd_segs _ _ _ _ _ GD). symmetry. exact U2.
        * eapply queue_trans; [exact C0|exact Q0|exact T13|]. intros b0 Hb0. specialize (PNP b0 Hb0). specialize (NRU b0 Hb0). tauto.
      + intros q m dd ee HI HO. apply U5; [exact HI|]. intros [[K|K]|K]; [exact K| |exact (HO K)]. subst q. exact (RF _ _ _ HI).
      + rewrite U1. exact U6.
    - intros _ _ m d e0 i HI Hi. assert (EE : e0 = e).
      { assert (S := used_sep _ _ _ _ W). destruct (ForallOrdPairs_In S _ _ HI HU) as [K|K]; [congruence|].
        destruct (used_in _ _ _ _ _ _ _ _ W HI) as (_ & _ & _ & J & _). exfalso.
        destruct K as [K|K]; unfold esep, eend, eptr in K; cbn [fst snd] in K; lia. }
      subst e0. destruct (T3e r n h e1 HR) as (_ & K); [exact NRP|]. destruct HCN as (_ & _ & N3 & N4). rewrite <- N4 in Hi.
      assert (HX : r <= r + i < e1) by (clear - Hi N3; lia). rewrite (K _ HX). exact (HP2 i Hi).
    - rewrite U1. assert (SA := srcok_alloc h p n gr _ _ _ RE). destruct SA as (SA1 & SA2).
      destruct FR as [(G1 & bb & zz & G2 & G3 & ->)|[(_ & -> & _)|(-> & _)]]; [|exact (conj SA1 SA2)|exact (conj SA1 SA2)].
      split; [intros b0 z0 [K|K]; [discriminate|exact (SA1 _ _ K)]|]. intros b0 [K|K]; [|exact (SA2 _ K)]. injection K as <-.
      split; [exact G1|]. exists zz. split; [|exact G3]. rewrite T1b in G2. apply apply_evs_in in G2 as [G2|(b1 & z1 & E1 & G2)].
      + rewrite (gd_segs _ _ _ _ _ GD). exact G2.
      + exfalso. injection E1 as <- <-. destruct (SA1 _ _ G2) as (_ & Eg & Ez). destruct R45 as (_ & R5). specialize (R5 G1 _ Eg).
        destruct R5 as (_ & _ & _ & _ & _ & R5). destruct (used_in _ _ _ _ _ _ _ _ W HU) as (sg0 & J1 & J2 & J3 & J4 & J5 & J6).
        assert (HR5 : apart (bb, ask_size h n) (gbase sg0, gsize sg0)).
        { apply R5. right. rewrite (gd_segs _ _ _ _ _ GD). apply in_map_iff. exists sg0. auto. }
        destruct HR5 as [K|K].
        * cbn [fst snd] in K. rewrite <- Ez in K. clear - K G3 J2 J6. lia.
        * cbn [fst snd] in K. clear - K G3 J2 J3 J4 J5 J6 HU W. lia.
    - split; [intros _ _; exists (e1 - r); split; [|exact HFT]|].
      + destruct (T3e r n h e1 HR) as (K & _); [exact NRP|]. eapply used_usable; [exact (iv_w _ _ _ _ (co_inv _ _ _ _ _ C3))|exact K].
      + intros _ _. exists (c - 16). split; [exact UE|]. split; [|intros K; contradiction]. split; [intros K; contradiction|intros K; contradiction].
  Qed.
End Realloc.
