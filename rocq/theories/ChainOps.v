(** Specifications of the building blocks of the public operations. *)
From Verif Require Import Word Res Mem SizeClassModel SizeClassProofs ChainModel Wp ChainInv ChainZip ChainList ChainFl ChainPrim ChainFind ChainSplit ChainMerge.
From Coq Require Import ZArith List Bool Lia.
Import ListNotations.
Open Scope Z_scope.

(** ** Padded headers *)
Definition bdok (bd a : Z) : Prop := 0 <= bd /\ (1 < bd -> (8 mod bd = 0 \/ bd mod 16 = 0) /\ a mod 8 = 0).
Definition padsz (bd n : Z) : Z := if 1 <? bd then n + bd else n.

Lemma round_up p bd : 0 < bd -> p mod bd <> 0 -> (p + (bd - p mod bd)) mod bd = 0.
Proof.
  intros H _. assert (E := Z.div_mod p bd ltac:(lia)).
  replace (p + (bd - p mod bd)) with ((p / bd + 1) * bd) by lia. apply Z_mod_mult.
Qed.
Lemma mod8 p bd : 0 < bd -> p mod 8 = 0 -> bd mod 16 = 0 -> p mod bd <> 0 -> 8 <= p mod bd < bd.
Proof.
  intros H1 H2 H3 H4. assert (B := Z.mod_pos_bound p bd H1).
  assert (E1 : p = 8 * (p / 8)) by lia. assert (E2 : bd = 8 * (bd / 8)) by lia.
  assert (E3 : p mod bd = 8 * ((p / 8) mod (bd / 8))).
  { rewrite E1 at 1. rewrite E2 at 1. apply Zmult_mod_distr_l. }
  lia.
Qed.
Lemma div8 p bd : 0 < bd -> p mod 8 = 0 -> 8 mod bd = 0 -> p mod bd = 0.
Proof.
  intros H1 H2 H3. apply Z.mod_divide in H2; [|lia]. apply Z.mod_divide in H3; [|lia].
  apply Z.mod_divide; [lia|]. eapply Z.divide_trans; eauto.
Qed.

(** a chunk leaves the pool for the program *)
Lemma inv_lk_us g s F S1 b z l1 c l2 S2 a p n d m' :
  Inv g s (S1 ++ mkSeg b z (l1 ++ (c, Lk) :: l2) :: S2) F -> a = b + 32 + tot l1 ->
  chg (smem s) m' (fun x => a + 16 <= x < a + c) -> kok m' a c (Us p n d) ->
  Inv g (set_mem s m') (S1 ++ mkSeg b z (l1 ++ (c, Us p n d) :: l2) :: S2) F.
Proof.
  intros IV Ea HC HK. assert (W := iv_w _ _ _ _ IV).
  assert (HW := world_chunk _ _ _ _ _ _ _ _ _ _ _ _ W Ea).
  destruct HW as (H1 & H2 & H3 & _ & H7 & H8 & H9 & H10 & H11 & H12 & _).
  eapply (inv_renof g s F S1 b z l1 [(c, Lk)] [(c, Us p n d)] l2 S2 a m'); auto.
  - discriminate.
  - repeat constructor; discriminate.
  - repeat constructor; discriminate.
  - cbn [cks]. split; [lia|]. split; [lia|]. split; [|auto].
    eapply hdr_frame; [exact HC| |exact H3]. intros x Hx Px. cbv beta in Px. lia.
  - cbn [tot]. eapply chg_weaken; [exact HC|]. intros x Hx. cbv beta in Hx. lia.
  - cbn [tot lastsz]. replace (a + (c + 0) + 8) with (a + c + 8) by lia.
    rewrite (chg_ld _ _ _ _ _ HC); [exact H12|]. intros x Hx Px. cbn in Hx. lia.
Qed.

Lemma padded_spec g s F S1 b z l1 c l2 S2 a bd n :
  Inv g s (S1 ++ mkSeg b z (l1 ++ (c, Lk) :: l2) :: S2) F -> a = b + 32 + tot l1 ->
  1 <= n -> bdok bd a -> 16 + padsz bd n <= c ->
  wp (bind (if 1 <? bd then setup_chunk_padded (a + 15) bd else ret (a + 15)) (fun v => ret (chunk_body v))) s (fun p s' =>
    Inv g s' (S1 ++ mkSeg b z (l1 ++ (c, Us p n bd) :: l2) :: S2) F /\ memonly s s' /\
    chg (smem s) (smem s') (scratch g (S1 ++ mkSeg b z (l1 ++ (c, Lk) :: l2) :: S2)) /\
    (1 < bd -> p mod bd = 0) /\ (bd <= 1 -> p = a + 16)).
Proof.
  intros IV Ea Hn (Hb0 & Hb) Hc. assert (W := iv_w _ _ _ _ IV).
  assert (HW := world_chunk _ _ _ _ _ _ _ _ _ _ _ _ W Ea).
  destruct HW as (H1 & H2 & (H3 & H4 & H5) & _ & H7 & H8 & H9 & H10 & H11 & H12 & _).
  assert (BW := W64_val).
  unfold padsz in Hc.
  assert (NOP : forall Q : Z -> st -> Prop, Q (a + 16) s -> wp (ret (chunk_body (a + 15))) s Q).
  { intros Q HQ. apply wp_ret. unfold chunk_body. destruct (Z.eqb_spec (a + 15) 0); [lia|].
    replace (a + 15 + 1) with (a + 16) by lia. exact HQ. }
  assert (PLAIN : (1 < bd -> (a + 16) mod bd = 0) -> n + 16 <= c ->
    Inv g s (S1 ++ mkSeg b z (l1 ++ (c, Us (a + 16) n bd) :: l2) :: S2) F /\ memonly s s /\
    chg (smem s) (smem s) (scratch g (S1 ++ mkSeg b z (l1 ++ (c, Lk) :: l2) :: S2)) /\
    (1 < bd -> (a + 16) mod bd = 0) /\ (bd <= 1 -> a + 16 = a + 16)).
  { intros K K2. split.
    - rewrite (set_mem_id s). eapply inv_lk_us; [exact IV|exact Ea|apply chg_refl|].
      cbn [kok]. split; [lia|]. split; [lia|]. split; [lia|]. split; [lia|]. split; [left; reflexivity|]. split; [reflexivity|exact K].
    - split; [apply memonly_refl|]. split; [apply chg_refl|]. auto. }
  destruct (Z.ltb_spec 1 bd) as [Lb|Lb].
  2:{ apply wp_bind. apply wp_ret. apply NOP. apply PLAIN; lia. }
  destruct (Hb Lb) as (HB & Ha8).
  unfold setup_chunk_padded.
  assert (EO : chunk_body (a + 15) = a + 16).
  { unfold chunk_body. destruct (Z.eqb_spec (a + 15) 0); lia. }
  rewrite EO.
  destruct (Z.ltb_spec 1 bd) as [_|?]; [|lia].
  destruct (Z.eqb_spec (a + 15) 0) as [?|_]; [lia|]. cbn [negb andb].
  destruct (Z.eqb_spec ((a + 16) mod bd) 0) as [E0|E0]; cbn [negb].
  { apply wp_bind. apply wp_ret. apply NOP. apply PLAIN; [intros _; exact E0|lia]. }
  destruct HB as [HB|HB]; [exfalso; apply E0; apply div8; lia|].
  unfold SZ_PADDED. rewrite (add64_small (a + 16) 8) by lia. replace (a + 16 + 8) with (a + 24) by lia.
  set (ptr := if negb ((a + 24) mod bd =? 0) then add64 (a + 24) (bd - (a + 24) mod bd) else a + 24).
  assert (HP : a + 24 <= ptr <= a + 16 + bd /\ ptr mod bd = 0).
  { unfold ptr. destruct (Z.eqb_spec ((a + 24) mod bd) 0) as [E1|E1]; cbn [negb].
    - lia.
    - assert (K := mod8 (a + 24) bd ltac:(lia) ltac:(lia) HB E1).
      rewrite add64_small by lia. split; [lia|]. apply round_up; lia. }
  destruct HP as (HP & HPm).
  rewrite (sub64_small ptr 8) by lia. rewrite (sub64_small (ptr - 8) (a + 16)) by lia. cbv zeta.
  assert (ACa : accb (srng s) a c = true) by (eapply accb_intro; [exact H11|lia|lia]).
  apply wp_bind. apply wp_bind. apply wp_store; [eapply accb_sub; [exact ACa|lia|cbn; lia]|].
  set (m1 := sto (smem s) (ptr - 8) 7 (ptr - 8 - (a + 16))).
  assert (C1 : chg (smem s) m1 (fun x => ptr - 8 <= x < ptr)).
  { unfold m1. apply chg_sto; [apply chg_refl|]. intros x Hx. cbn in Hx. lia. }
  apply wp_bind. eapply wp_get_state; [eapply accb_sub; [exact ACa|lia|lia]| |].
  { cbn [smem set_mem]. rewrite (chg_ld _ _ _ _ _ C1); [exact H5|]. intros x Hx Px; cbn in Hx; cbv beta in Px. lia. }
  change (i_state (info_of Lk)) with 1.
  assert (ASSOC : forall (rest : M Z) Q,
    wp (bind (set_state (ptr - 8 + 7) 1 ;;; set_type (ptr - 8 + 7) T_PADDED ;;; set_magic (ptr - 8 + 7) MAGIC) (fun _ => rest)) (set_mem s m1) Q ->
    wp (set_state (ptr - 8 + 7) 1 ;;; set_type (ptr - 8 + 7) T_PADDED ;;; set_magic (ptr - 8 + 7) MAGIC ;;; rest) (set_mem s m1) Q).
  { intros rest Q K. apply wp_bind_inv in K. apply wp_bind_inv in K. apply wp_bind.
    eapply wp_mono; [exact K|]. cbv beta. intros _ s1 K1. apply wp_bind_inv in K1. apply wp_bind.
    eapply wp_mono; [exact K1|]. cbv beta. intros _ s2 K2. apply wp_bind. exact K2. }
  apply ASSOC. apply wp_bind. apply (info_writes m1); unfold T_PADDED, MAGIC; try lia; [eapply accb_sub; [exact ACa|lia|lia]|].
  rewrite set_mem_eq. intros m2 C2 L2. rewrite set_mem_mem.
  change (mk_info 2 1 16) with 134 in L2.
  apply wp_ret. unfold vchunk_of_padded. apply wp_ret. unfold chunk_body.
  destruct (Z.eqb_spec (ptr - 8 + 7) 0) as [?|_]; [lia|]. replace (ptr - 8 + 7 + 1) with ptr by lia.
  assert (C12 : chg (smem s) m2 (fun x => a + 16 <= x < a + c)).
  { eapply chg_trans2; [exact C1|exact C2| |]; intros x Hx; cbv beta in Hx; lia. }
  split; [|split; [apply memonly_set|split; [|split; [intros _; exact HPm|lia]]]].
  - eapply inv_lk_us; [exact IV|exact Ea|exact C12|]. cbn [kok].
    split; [lia|]. split; [lia|]. split; [lia|]. split; [lia|].
    split; [|split; [lia|intros _; exact HPm]]. right. split; [lia|]. split.
    + rewrite (chg_ld _ _ _ _ _ C2) by (intros x Hx Px; cbn in Hx; cbv beta in Px; lia).
      unfold m1. apply ld7_same. lia.
    + replace (ptr - 1) with (ptr - 8 + 7) by lia. exact L2.
  - cbn [smem set_mem]. eapply chg_weaken; [exact C12|]. intros x Hx. cbv beta in Hx.
    eapply (stretch_scratch g (srng s) (smem s) S1 b z l1 [(c, Lk)] l2 S2 a); [exact W|exact Ea|repeat constructor|cbn [tot]; lia].
Qed.

(** ** New segments *)
Definition fresh (s : st) (b z : Z) : Prop :=
  0 < b /\ b + z <= AMAX /\ z mod 16 = 0 /\ 80 <= z /\ forall x, In x (srng s) -> disj2 (b, z) x.

Lemma newseg_spec g s F A b z (ext : st) :
  Inv g s A F -> fresh s b z ->
  smem ext = smem s -> srng ext = (b, z) :: srng s -> sbase ext = sbase s ->
  wp (bind (setup_macro_bloc b z) (fun _ => prepare_macro_bloc g b)) ext (fun v s' =>
    v = b + 32 + 15 /\ Inv g s' (mkSeg b z [(z - 48, Lk)] :: A) F /\ memonly ext s' /\
    chg (smem s) (smem s') (fun x => b <= x < b + z)).
Proof.
  intros [W FL HB] (H1 & H2 & H3 & H4 & H5) Em Er Eb. assert (BW := W64_val).
  assert (ACC : forall o n, 0 <= o -> o + n <= z -> accb (srng ext) (b + o) n = true).
  { intros o n K1 K2. rewrite Er. eapply accb_intro; [left; reflexivity|lia|lia]. }
  assert (ACC0 : forall n, n <= z -> accb (srng ext) b n = true).
  { intros n K. rewrite <- (Z.add_0_r b). apply ACC; lia. }
  assert (PL := wd_pool _ _ _ _ W).
  apply wp_bind. unfold setup_macro_bloc. apply wp_bind.
  apply (setup_chunk_spec b z 0 0); try lia; [apply ACC0; lia|].
  rewrite Em. intros m1 C1 D1.
  apply wp_store; [apply ACC; cbn; lia|]. rewrite set_mem_eq, set_mem_mem.
  set (m2 := sto m1 (b + 16) 8 0).
  assert (C2 : chg m1 m2 (fun x => b + 16 <= x < b + 24)).
  { unfold m2. apply chg_sto; [apply chg_refl|]. intros x Hx. cbn in Hx. lia. }
  assert (D2 : hdr m2 b z 0 133).
  { eapply hdr_frame; [exact C2| |exact D1]. intros x Hx Px. cbv beta in Px. lia. }
  unfold prepare_macro_bloc. apply wp_bind. unfold get_size. apply wp_load; [apply ACC0; cbn; lia|].
  rewrite set_mem_eq. destruct (D2) as (D2a & _). rewrite D2a.
  apply wp_bind. unfold SZ_MACRO, SZ_LARGE.
  rewrite (sub64_small z 32) by lia. rewrite (sub64_small (z - 32) 16) by lia.
  replace (z - 32 - 16) with (z - 48) by lia.
  apply (setup_chunk_spec (b + 32) (z - 48) 0 0); try lia; [apply ACC; lia|].
  rewrite set_mem_eq. intros m3 C3 D3. rewrite set_mem_mem.
  apply wp_bind. unfold create_stopper. rewrite (add64_small b z) by lia. rewrite (sub64_small (b + z) 16) by lia.
  replace (b + z - 16) with (b + (z - 16)) by lia.
  apply wp_bind. apply (setup_chunk_spec (b + (z - 16)) 128 (b + 32) (z - 48)); try lia; [apply ACC; lia|].
  rewrite set_mem_eq. intros m4 C4 (D4a & D4b & D4c). rewrite set_mem_mem.
  unfold set_size, large_of, SZ_LARGE. replace (b + (z - 16) + 15 + 1 - 16) with (b + (z - 16)) by lia.
  apply wp_store; [apply ACC; cbn; lia|]. rewrite set_mem_eq, set_mem_mem.
  set (m5 := sto m4 (b + (z - 16)) 7 0).
  assert (C5 : chg m4 m5 (fun x => b + (z - 16) <= x < b + (z - 16) + 7)).
  { unfold m5. apply chg_sto; [apply chg_refl|]. intros x Hx. cbn in Hx. lia. }
  assert (FIN : forall m6, chg m5 m6 (fun x => b + 16 <= x < b + 24) -> (creg g = true -> ld m6 (b + 16) 8 = cpool g) ->
     b + 32 + 15 = b + 32 + 15 /\ Inv g (set_mem ext m6) (mkSeg b z [(z - 48, Lk)] :: A) F /\
     memonly ext (set_mem ext m6) /\ chg (smem s) (smem (set_mem ext m6)) (fun x => b <= x < b + z)).
  { intros m6 C6 L6. split; [reflexivity|].
    assert (CA : chg (smem s) m6 (fun x => b <= x < b + z)).
    { eapply chg_trans; [eapply chg_weaken; [exact C1|intros x Hx; cbv beta in Hx; lia]|].
      eapply chg_trans; [eapply chg_weaken; [exact C2|intros x Hx; cbv beta in Hx; lia]|].
      eapply chg_trans; [eapply chg_weaken; [exact C3|intros x Hx; cbv beta in Hx; lia]|].
      eapply chg_trans; [eapply chg_weaken; [exact C4|intros x Hx; cbv beta in Hx; lia]|].
      eapply chg_trans; [eapply chg_weaken; [exact C5|intros x Hx; cbv beta in Hx; lia]|].
      eapply chg_weaken; [exact C6|intros x Hx; cbv beta in Hx; lia]. }
    split; [|split; [apply memonly_set|exact CA]].
    assert (PD : disj2 (b, z) (cpool g, POOL_SIZE)) by (apply H5; eapply w_pool_rng; exact W).
    unfold disj2 in PD. cbn [fst snd] in PD.
    constructor; cbn [smem srng sbase set_mem].
    - constructor.
      + exact PL.
      + rewrite Er. rewrite (wd_rng _ _ _ _ W). reflexivity.
      + rewrite Er. constructor; [|exact (wd_disj _ _ _ _ W)]. apply Forall_forall. exact H5.
      + constructor.
        * split; [exact H1|]. split; [exact H2|]. cbn [gsize gchunks gbase tot lastsz cks kok].
          split; [lia|]. split.
          { eapply hdr_frame; [exact C6|intros x Hx Px; cbv beta in Px; lia|].
            eapply hdr_frame; [exact C5|intros x Hx Px; cbv beta in Px; lia|].
            eapply hdr_frame; [exact C4|intros x Hx Px; cbv beta in Px; lia|].
            eapply hdr_frame; [exact C3|intros x Hx Px; cbv beta in Px; lia|exact D2]. }
          split; [exact L6|]. split.
          { split; [lia|]. split; [lia|]. split; [|auto].
            eapply hdr_frame; [exact C6|intros x Hx Px; cbv beta in Px; lia|].
            eapply hdr_frame; [exact C5|intros x Hx Px; cbv beta in Px; lia|].
            eapply hdr_frame; [exact C4|intros x Hx Px; cbv beta in Px; lia|exact D3]. }
          eapply hdr_frame; [exact C6|intros x Hx Px; cbv beta in Px; lia|].
          unfold hdr, m5. replace (b + z - 16) with (b + (z - 16)) by lia.
          rewrite ld7_same by lia. rewrite !ld_sto_other by (cbn; lia). auto.
        * assert (WS := wd_seg _ _ _ _ W). rewrite Forall_forall in *. intros sg Hsg.
          eapply segok_frame; [exact CA| |apply WS; exact Hsg].
          intros x HM Px. cbv beta in Px.
          assert (R := segmeta_range _ _ _ _ (WS _ Hsg) HM).
          assert (D := H5 _ (w_in_rng _ _ _ _ W _ Hsg)). unfold disj2 in D. cbn [fst snd] in D. lia.
    - assert (EF : frees (mkSeg b z [(z - 48, Lk)] :: A) = frees A) by reflexivity. rewrite EF.
      eapply flok_frame; [exact FL|exact CA| |].
      + intros x Hx. cbv beta in Hx. lia.
      + intros x w d Hx Hw. cbv beta in Hx. apply frees_in_cells in Hw.
        destruct (w_cell _ _ _ _ W _ _ Hw) as (sg & K1 & _ & K3 & K4 & K5 & _).
        assert (D := H5 _ (w_in_rng _ _ _ _ W _ K1)). unfold disj2 in D. cbn [fst snd] in D. lia.
    - rewrite Eb. destruct HB as [HB|(sg & K & E)]; [left; exact HB|right]. exists sg. split; [right; exact K|exact E]. }
  unfold vchunk_of_large. destruct (creg g) eqn:Ec.
  - apply wp_bind. apply wp_store; [apply ACC; cbn; lia|]. rewrite set_mem_eq, set_mem_mem.
    apply wp_ret. apply FIN.
    + apply chg_sto; [apply chg_refl|]. intros x Hx; cbn in Hx; lia.
    + intros _. apply ld8_same. clear - PL BW. unfold POOL_SIZE in PL. lia.
  - apply wp_bind. apply wp_ret. apply wp_ret. apply FIN; [apply chg_refl|discriminate].
Qed.

(** ** Finding the chunk of a pointer *)
Lemma wp_get_chunk s p inf (Q : Z -> st -> Prop) : p <> 0 -> accb (srng s) (p - 1) 1 = true ->
  ld (smem s) (p - 1) 1 = inf -> i_magic inf = 16 -> (i_type inf = 1 \/ i_type inf = 2) ->
  Q (p - 1) s -> wp (get_chunk p) s Q.
Proof.
  intros Hp AC E Em Et H. unfold get_chunk. destruct (Z.eqb_spec p 0); [contradiction|]. cbv zeta.
  apply wp_bind. unfold get_magic. apply wp_bind. apply wp_load; [exact AC|]. rewrite E. apply wp_ret.
  rewrite Em. change (16 =? MAGIC) with true. cbn [negb].
  apply wp_bind. unfold get_type. apply wp_bind. apply wp_load; [exact AC|]. rewrite E. apply wp_ret.
  apply wp_bind. apply wp_assume; [unfold T_LARGE, T_PADDED; lia|]. apply wp_ret. exact H.
Qed.

(** What the header just before a live pointer says. *)
Lemma live_chunk g s S1 b z l1 c p n d l2 S2 a (Q : Z -> st -> Prop) :
  World g (srng s) (smem s) (S1 ++ mkSeg b z (l1 ++ (c, Us p n d) :: l2) :: S2) -> a = b + 32 + tot l1 ->
  Q (p - 1) s -> wp (get_chunk p) s Q.
Proof.
  intros W Ea H. assert (HC := world_chunk _ _ _ _ _ _ _ _ _ _ _ _ W Ea).
  destruct HC as (H1 & H2 & (H3 & H4 & H5) & (K1 & K2 & K3 & K4 & K5 & _) & H7 & H8 & H9 & H10 & H11 & _).
  assert (AC : accb (srng s) (p - 1) 1 = true) by (eapply accb_intro; [exact H11|lia|lia]).
  destruct K5 as [K5|(K5 & K6 & K7)].
  - apply (wp_get_chunk s p 133); auto; [lia|]. replace (p - 1) with (a + 15) by lia. exact H5.
  - apply (wp_get_chunk s p 134); auto; [lia].
Qed.

Lemma live_unpad g s S1 b z l1 c p n d l2 S2 a (Q : Z -> st -> Prop) :
  World g (srng s) (smem s) (S1 ++ mkSeg b z (l1 ++ (c, Us p n d) :: l2) :: S2) -> a = b + 32 + tot l1 ->
  Q (a + 15) s -> wp (unpad_vchunk (p - 1)) s Q.
Proof.
  intros W Ea H. assert (HC := world_chunk _ _ _ _ _ _ _ _ _ _ _ _ W Ea).
  destruct HC as (H1 & H2 & (H3 & H4 & H5) & (K1 & K2 & K3 & K4 & K5 & _) & H7 & H8 & H9 & H10 & H11 & _).
  assert (AC : accb (srng s) (p - 1) 1 = true) by (eapply accb_intro; [exact H11|lia|lia]).
  assert (ACa : accb (srng s) (a + 15) 1 = true) by (eapply accb_intro; [exact H11|lia|lia]).
  unfold unpad_vchunk. destruct (Z.eqb_spec (p - 1) 0); [lia|].
  apply wp_bind. unfold get_type. apply wp_bind. apply wp_load; [exact AC|].
  destruct K5 as [K5|(K5 & K6 & K7)].
  - replace (p - 1) with (a + 15) by lia. rewrite H5. apply wp_ret. change (i_type (info_of (Us p n d)) =? T_PADDED) with false.
    cbn iota. apply wp_ret. exact H.
  - rewrite K7. apply wp_ret. change (i_type 134 =? T_PADDED) with true. cbn iota.
    unfold padded_of, SZ_PADDED. replace (p - 1 + 1 - 8) with (p - 8) by lia.
    apply wp_bind. unfold get_padding. apply wp_load; [eapply accb_intro; [exact H11|lia|cbn; lia]|]. rewrite K6.
    rewrite sub64_small by (rewrite W64_val; lia). replace (p - 8 - (p - 8 - (a + 16))) with (a + 16) by lia.
    apply (wp_get_chunk s (a + 16) 133); auto; [lia| | |].
    + replace (a + 16 - 1) with (a + 15) by lia. exact ACa.
    + replace (a + 16 - 1) with (a + 15) by lia. exact H5.
    + replace (a + 16 - 1) with (a + 15) by lia. exact H.
Qed.

Lemma live_chunk_unpadded g s S1 b z l1 c p n d l2 S2 a (Q : Z -> st -> Prop) :
  World g (srng s) (smem s) (S1 ++ mkSeg b z (l1 ++ (c, Us p n d) :: l2) :: S2) -> a = b + 32 + tot l1 ->
  Q (a + 15) s -> wp (get_chunk_unpadded p) s Q.
Proof.
  intros W Ea H. unfold get_chunk_unpadded. apply wp_bind. eapply live_chunk; [exact W|exact Ea|].
  eapply live_unpad; [exact W|exact Ea|exact H].
Qed.

(** Us -> Lk: nothing changes in memory *)
Lemma inv_us_lk g s F S1 b z l1 c p n d l2 S2 :
  Inv g s (S1 ++ mkSeg b z (l1 ++ (c, Us p n d) :: l2) :: S2) F ->
  Inv g s (S1 ++ mkSeg b z (l1 ++ (c, Lk) :: l2) :: S2) F.
Proof.
  intros IV. assert (W := iv_w _ _ _ _ IV). set (a := b + 32 + tot l1).
  assert (HW := world_chunk _ _ _ _ _ _ _ _ _ _ _ a W eq_refl).
  destruct HW as (H1 & H2 & H3 & _ & H7 & H8 & H9 & H10 & H11 & H12 & _).
  rewrite (set_mem_id s).
  eapply (inv_renof g s F S1 b z l1 [(c, Us p n d)] [(c, Lk)] l2 S2 a); auto.
  - discriminate.
  - repeat constructor; discriminate.
  - repeat constructor; discriminate.
  - cbn [cks]. split; [lia|]. split; [lia|]. split; [exact H3|]. split; exact I.
  - apply chg_refl.
  - cbn [tot lastsz]. replace (a + (c + 0) + 8) with (a + c + 8) by lia. exact H12.
Qed.

(** ** Giving a segment back *)
Lemma dropseg g s F S1 b z l S2 (s' : st) :
  Inv g s (S1 ++ mkSeg b z l :: S2) F -> nofr l -> sbase s = 0 -> smem s' = smem s -> sbase s' = sbase s ->
  srng s' = filter (fun '(x, _) => negb (x =? b)) (srng s) ->
  existsb (fun '(x, _) => x =? b) (srng s) = true /\ Inv g s' (S1 ++ S2) F.
Proof.
  intros [W FL HB] N E0 Em Eb Er.
  assert (HI : In (mkSeg b z l) (S1 ++ mkSeg b z l :: S2)) by (apply in_or_app; right; left; reflexivity).
  assert (HR := w_in_rng _ _ _ _ W _ HI). cbn [gbase gsize] in HR.
  assert (HS := w_segok _ _ _ _ W _ HI).
  split.
  { apply existsb_exists. exists (b, z). split; [exact HR|]. apply Z.eqb_refl. }
  assert (PL := wd_pool _ _ _ _ W). assert (PD := w_pool_disj _ _ _ _ W _ HI). unfold disj2 in PD. cbn [fst snd gbase gsize] in PD.
  assert (ZB : 48 <= z).
  { destruct HS as (_ & _ & K3 & _ & _ & K6 & _). cbn [gsize gchunks gbase] in *. assert (T := cks_tot _ _ _ _ K6). lia. }
  assert (FA : forall S, (forall sg, In sg S -> In sg (S1 ++ S2)) ->
     filter (fun '(x, _) => negb (x =? b)) (map segr S) = map segr S).
  { induction S as [|sg S IH]; intros HSub; [reflexivity|]. cbn [map filter]. unfold segr at 1.
    assert (K := w_two_segs _ _ _ _ W S1 (mkSeg b z l) S2 sg eq_refl (HSub _ (or_introl eq_refl))).
    unfold disj2 in K. cbn [fst snd gbase gsize] in K.
    assert (K' : segok g (smem s) sg).
    { eapply w_segok; [exact W|]. assert (K2 := HSub _ (or_introl eq_refl)). apply in_app_or in K2.
      apply in_or_app. destruct K2; [left; auto|right; right; auto]. }
    destruct K' as (_ & _ & J3 & _ & _ & J6 & _). assert (T := cks_tot _ _ _ _ J6).
    destruct (Z.eqb_spec (gbase sg) b); [lia|]. cbn [negb]. unfold segr at 1. rewrite IH; [reflexivity|].
    intros sg' H'. apply HSub. right. exact H'. }
  assert (ER : filter (fun '(x, _) => negb (x =? b)) (srng s) = map segr (S1 ++ S2) ++ [(cpool g, POOL_SIZE)]).
  { rewrite (wd_rng _ _ _ _ W), map_app. cbn [map]. unfold segr at 2. cbn [gbase gsize].
    rewrite !filter_app. cbn [filter]. rewrite Z.eqb_refl. cbn [negb].
    rewrite (FA S1) by (intros sg H; apply in_or_app; left; exact H).
    rewrite (FA S2) by (intros sg H; apply in_or_app; right; exact H).
    unfold POOL_SIZE in *. destruct (Z.eqb_spec (cpool g) b); [lia|]. cbn [negb]. rewrite map_app. reflexivity. }
  constructor.
  - constructor.
    + exact PL.
    + rewrite Er, ER. reflexivity.
    + rewrite Er, ER. assert (D := wd_disj _ _ _ _ W). rewrite (wd_rng _ _ _ _ W) in D.
      rewrite map_app in *. cbn [map] in D. rewrite <- app_assoc in D |- *. cbn [app] in D.
      apply FOP_app in D as (D1 & D2 & D3). inversion D2 as [|? ? D4 D5]; subst.
      apply FOP_app. split; [exact D1|]. split; [exact D5|]. intros x y Hx Hy. apply D3; [exact Hx|right; exact Hy].
    + rewrite Em. assert (D := wd_seg _ _ _ _ W). apply Forall_app in D as (D1 & D2). apply Forall_app. split; [exact D1|].
      inversion D2; assumption.
  - rewrite Em. replace (frees (S1 ++ S2)) with (frees (S1 ++ mkSeg b z l :: S2)); [exact FL|].
    rewrite frees_mid, (nofr_frees l) by exact N. unfold frees. rewrite flat_map_app. reflexivity.
  - left. lia.
Qed.
