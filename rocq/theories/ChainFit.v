(** Size of the blocks given for the requests, and when more memory is asked to the source. *)
From Verif Require Import Word Res Mem SizeClassModel SizeClassProofs ChainModel Wp ChainInv ChainZip ChainList ChainFl ChainPrim ChainFind ChainSplit ChainMerge ChainOps ChainAlloc ChainFree ChainSpec ChainCore ChainCoreFree ChainStep ChainRealloc ChainQueue ChainRefill ChainFuel ChainTrace ChainEv ChainProps ChainWalk ChainCap ChainSrc ChainPut ChainMore ChainExtra.
From Coq Require Import ZArith List Bool Lia.
Import ListNotations.
Open Scope Z_scope.

Lemma alloc_fit g s o d n gr fuel r s' : reach g s o -> valid g s o (OAlloc d n gr) -> step fuel g (OAlloc d n gr) s = Ok (r, s') ->
  r <> 0 -> exists u, usable s' r u /\ fits g d n u.
Proof.
  intros R V E. destruct (reach_good _ _ _ R) as (A & F & G).
  pattern r, s'. eapply (step_any fuel g s o (OAlloc d n gr) r s'); [|exact E]. cbv beta.
  intros f Hf. cbn [exec]. unfold fuel_ok in Hf. cbn [extra] in Hf. rewrite (held_bytes _ _ (gd_segs _ _ _ _ _ G)) in Hf.
  eapply wp_mono; [eapply (alloc_core f g (clear_ev s) _ A F o gr d n); [apply core_clear; exact (gd_core _ _ _ _ _ G)|exact (gd_segs _ _ _ _ _ G)|exact V|exact Hf]|].
  intros r1 s1 (A1 & F1 & evs & C1 & _ & _ & _ & H1) Er. destruct (H1 Er) as (_ & _ & (e & K1 & K2) & _).
  exists (e - r1). split; [|exact K2]. eapply used_usable; [exact (iv_w _ _ _ _ (co_inv _ _ _ _ _ C1))|exact K1].
Qed.

Lemma realloc_sized g s o h p n gr fuel r s' : reach g s o -> valid g s o (ORealloc h p n gr) ->
  step fuel g (ORealloc h p n gr) s = Ok (r, s') -> sized g s h p n r s'.
Proof.
  intros R V E. destruct (reach_good _ _ _ R) as (A & F & G).
  pattern r, s'. eapply (step_any fuel g s o (ORealloc h p n gr) r s'); [|exact E]. cbv beta.
  intros f Hf. eapply wp_mono; [apply (step_realloc f g s o A F G h p n gr V Hf)|]. intros r1 s1 (_ & _ & _ & _ & K). exact K.
Qed.

(** The bounds in plain numbers. *)
Definition bound (g : cfg) (d n u : Z) : Prop :=
  (d <= 1 -> csrc g = false \/ n <= 1048560 -> u <= n + 31) /\
  (1 < d -> csrc g = false \/ n + d <= 1048560 -> u <= n + d + 31) /\
  (d <= 1 -> csrc g = true -> 1048560 < n -> u < n + 2097152) /\
  (1 < d -> csrc g = true -> 1048560 < n + d -> u < n + d + 2097152).
Lemma fits_bound g d n u : 1 <= n -> 0 <= d -> fits g d n u -> bound g d n u.
Proof.
  intros Hn Hd H. unfold fits, bound in *.
  assert (ES : 1048560 < asked d n -> ask_size d n <= asked d n + 2097199).
  { intros L. unfold ask_size. destruct (Z.ltb_spec (1048576 - 16) (asked d n)) as [_|L2]; lia. }
  assert (EA : (d <= 1 -> asked d n = n) /\ (1 < d -> asked d n = n + d)) by (unfold asked; destruct (Z.ltb_spec 1 d); lia).
  assert (ER : room d n <= asked d n + 31) by (unfold room; destruct EA; destruct (Z_le_dec d 1); lia).
  destruct EA as (EA1 & EA2).
  destruct (csrc g) eqn:Hc; cbn [andb] in H; [destruct (Z.ltb_spec (1048576 - 16) (asked d n)) as [L|L]|]; destruct H as (H & _);
    (split; [|split; [|split]]); intros D; (specialize (EA1 D) || specialize (EA2 D)); try lia; intros [C|C]; try discriminate; lia.
Qed.

(** Every block of a history: the bound of its request, or it has been shrunk in place. *)
Definition shrunk (g : cfg) (n u : Z) : Prop := n <= u /\ u - n <= cthresh g /\ 0 < cfactor g /\ (u - n) * cfactor g <= u.
Lemma keep_shrunk g n u : 0 < cfactor g -> keepable g n u -> shrunk g n u.
Proof.
  intros F (H1 & H2 & H3). split; [exact H1|]. split; [exact H2|]. split; [exact F|].
  assert (M := Z.mul_div_le u (cfactor g) F). nia.
Qed.

Lemma rm_in p l b : In b (rm p l) -> In b l /\ bp b <> p.
Proof. unfold rm. intros H. apply filter_In in H as (H1 & H2). split; [exact H1|]. destruct (Z.eqb_spec (bp b) p); [discriminate|assumption]. Qed.

Lemma live_bound g s o : reach g s o -> forall b u, In b (live o) -> usable s (bp b) u -> bound g (bd b) (bn b) u \/ shrunk g (bn b) u.
Proof.
  intros R. induction R as [m s Hg E|s o fuel c r s' R IH V E]; [intros b u []|].
  assert (R' := reach_step _ _ _ _ _ _ _ R V E).
  assert (KEPT : forall b u, In b (live o) -> ~ target c (bp b) -> usable s' (bp b) u -> bound g (bd b) (bn b) u \/ shrunk g (bn b) u).
  { intros b u HI NT U. destruct (blocks_inside _ _ _ R _ (in_or_app (live o) (pend o) _ (or_introl HI))) as (u0 & _ & _ & U0 & _).
    destruct (step_kept _ _ _ _ _ _ _ _ _ R V E HI NT U0) as (_ & U1 & _). rewrite (usable_eq _ _ _ _ U U1). eapply IH; eauto. }
  assert (POS : forall d n gr, request_ok g o d n gr -> 0 <= d) by (intros d n gr (_ & D & _); apply pow2_bd in D; lia).
  intros b u HI U. destruct c as [d n gr|p|h p n gr|bb zz|x v|p| |m]; cbn [next live target] in *.
  - destruct (Z.eqb_spec r 0) as [Er|Er]; [apply KEPT; auto|]. destruct HI as [<-|HI]; [|apply KEPT; auto].
    cbn [bp bn bd] in *. left. destruct (alloc_fit _ _ _ _ _ _ _ _ _ R V E Er) as (u1 & K1 & K2). rewrite (usable_eq _ _ _ _ U K1).
    destruct (alloc_info _ _ _ _ _ _ _ _ _ R V E) as (_ & K3). apply fits_bound; [apply K3; exact Er|eapply POS; exact V|exact K2].
  - apply rm_in in HI as (HI & NE). apply KEPT; auto.
  - destruct (realloc_sized _ _ _ _ _ _ _ _ _ _ R V E) as (S1 & S2). assert (V' := V). destruct V' as (V1 & V2 & V3).
    destruct (Z.eqb_spec p 0) as [Ep|Ep].
    { assert (NT : forall b0, In b0 (live o) -> bp b0 <> p).
      { intros b0 H0. assert (K := block_pos _ _ _ R _ (in_or_app (live o) (pend o) _ (or_introl H0))). lia. }
      destruct (Z.eqb_spec r 0) as [Er|Er]; [apply KEPT; auto|]. destruct HI as [<-|HI]; [|apply KEPT; auto].
      cbn [bp bn bd] in *. left. destruct (S1 Er ltac:(lia)) as (u1 & K1 & K2). rewrite (usable_eq _ _ _ _ U K1).
      apply fits_bound; [|eapply POS; exact V2|exact K2].
      subst p. unfold step in E. cbn [exec] in E. unfold chain_realloc in E. cbn [andb Z.eqb] in E.
      destruct (Z.eqb_spec n 0) as [En|En]; [injection E as E _; congruence|]. destruct V2 as (V2 & _). lia. }
    destruct (Z.eqb_spec n 0) as [En|En]; [apply rm_in in HI as (HI & NE); apply KEPT; auto|].
    destruct (S2 Ep En) as (u0 & U0 & KP & KU).
    destruct (Z.eqb_spec r p) as [Er|Er].
    { subst r. unfold resize in HI. apply in_map_iff in HI as (b0 & Eb & HI). destruct (Z.eqb_spec (bp b0) p) as [E0|E0].
      - subst b. cbn [bp bn bd] in *. right. specialize (KU eq_refl). rewrite (usable_eq _ _ _ _ U KU). apply keep_shrunk; [exact V3|apply KP; reflexivity].
      - subst b0. apply KEPT; auto. }
    destruct (Z.eqb_spec r 0) as [E0|E0]; [apply rm_in in HI as (HI & NE); apply KEPT; auto|].
    destruct HI as [<-|HI]; [|apply rm_in in HI as (HI & NE); apply KEPT; auto].
    cbn [bp bn bd] in *. left. destruct (S1 E0 Er) as (u1 & K1 & K2). rewrite (usable_eq _ _ _ _ U K1).
    apply fits_bound; [|eapply POS; exact V2|exact K2]. destruct V2 as (V2 & _). lia.
  - apply KEPT; auto.
  - apply KEPT; auto.
  - apply rm_in in HI as (HI & NE). apply KEPT; auto.
  - apply KEPT; auto.
  - apply KEPT; auto.
Qed.

(** ** The statements *)
Lemma new_block_size g s o d n gr fuel r s' u : reach g s o -> valid g s o (OAlloc d n gr) -> step fuel g (OAlloc d n gr) s = Ok (r, s') ->
  r <> 0 -> usable s' r u ->
  bound g d n u /\ (d <= 1 -> csrc g = false \/ n <= 1048560 -> u = Z.max 16 ((n + 15) / 16 * 16) \/ u = Z.max 16 ((n + 15) / 16 * 16) + 16) /\
  (d <= 1 -> csrc g = true -> 1048560 < n -> (u + 64) mod 2097152 = 0).
Proof.
  intros R V E Er U. destruct (alloc_fit _ _ _ _ _ _ _ _ _ R V E Er) as (u1 & K1 & K2). rewrite (usable_eq _ _ _ _ U K1). clear u U.
  destruct (alloc_info _ _ _ _ _ _ _ _ _ R V E) as (_ & K3). destruct (K3 Er) as (Hn & _).
  assert (Hd : 0 <= d) by (destruct V as (_ & D & _); apply pow2_bd in D; lia).
  split; [apply fits_bound; assumption|]. unfold fits, room, ask_size, asked in K2.
  split; intros D C; (destruct (Z.ltb_spec 1 d) as [L|_]; [lia|]).
  - replace (csrc g && (1048576 - 16 <? n)) with false in K2 by (destruct C as [-> |C]; [reflexivity|lia]). destruct K2 as (_ & K2). specialize (K2 D). lia.
  - intros L. rewrite C in K2. destruct (Z.ltb_spec (1048576 - 16) n) as [_|L2]; [|lia]. cbn [andb] in K2. destruct K2 as (_ & K2). specialize (K2 D). lia.
Qed.

Lemma realloc_in_place g s o h p m d n gr fuel r s' u : reach g s o -> valid g s o (ORealloc h p n gr) ->
  step fuel g (ORealloc h p n gr) s = Ok (r, s') -> In (mkBlk p m d) (live o) -> n <> 0 -> usable s p u ->
  (r = p <-> n <= u /\ u - n <= cthresh g /\ u - n <= u / cfactor g) /\ (r = p -> usable s' p u) /\
  (r <> p -> r <> 0 -> forall v, usable s' r v -> bound g h n v).
Proof.
  intros R V E HI Hn U. assert (Hp := block_pos _ _ _ R _ (in_or_app (live o) (pend o) _ (or_introl HI))). cbn [bp] in Hp.
  destruct (realloc_sized _ _ _ _ _ _ _ _ _ _ R V E) as (S1 & S2). destruct (S2 ltac:(lia) Hn) as (u0 & U0 & K1 & K2).
  rewrite (usable_eq _ _ _ _ U U0). split; [exact K1|]. split; [intros ->; apply K2; reflexivity|].
  intros N1 N2 v Uv. destruct (S1 N2 N1) as (u1 & J1 & J2). rewrite (usable_eq _ _ _ _ Uv J1). destruct V as (_ & V & _).
  assert (0 <= h) by (destruct V as (_ & D & _); apply pow2_bd in D; lia). destruct V as (V & _). apply fits_bound; [lia|assumption|exact J2].
Qed.

(** ** The source is asked only when nothing fits *)
Lemma asks_when_full g s o c fuel r s' b z : reach g s o -> valid g s o c -> step fuel g c s = Ok (r, s') -> In (EGet b z) (sevs s') ->
  exists d n, (c = OAlloc d n (Some b) \/ exists p, c = ORealloc d p n (Some b)) /\ z = ask_size d n /\
    (huge d n \/ no_fit (smem s) o d n).
Proof.
  intros R V E HI.
  assert (AL : forall d n gr r0 s1, valid g s o (OAlloc d n gr) -> step fuel g (OAlloc d n gr) s = Ok (r0, s1) -> In (EGet b z) (sevs s1) ->
    gr = Some b /\ z = ask_size d n /\ (huge d n \/ no_fit (smem s) o d n)).
  { intros d n gr r0 s1 V1 E1 H1. destruct (alloc_info _ _ _ _ _ _ _ _ _ R V1 E1) as (A0 & A1). destruct (Z.eq_dec r0 0) as [E0|E0].
    - destruct (A0 E0) as (-> & _). contradiction.
    - destruct (A1 E0) as (_ & [(K & _)|(b1 & _ & K2 & K3 & K4)]); [rewrite K in H1; contradiction|].
      rewrite K3 in H1. destruct H1 as [H1|[]]. injection H1 as <- <-. auto. }
  assert (NG : not_refill c -> gets c (EGet b z)).
  { intros NR. destruct (ev_exec fuel g c NR _ _ _ E) as (evs & K1 & K2 & _). cbn [clear_ev sevs] in K1. rewrite app_nil_r in K1.
    rewrite K1 in HI. rewrite Forall_forall in K2. apply (K2 _ HI). }
  destruct c as [d n gr|p|d p n gr|bb zz|x v|p| |m]; cbn [not_refill gets] in NG; try (exfalso; exact (NG Logic.I)).
  - destruct (AL _ _ _ _ _ V E HI) as (-> & K). exists d, n. split; [left; reflexivity|exact K].
  - exists d, n. assert (V2 : valid g s o (OAlloc d n gr)) by apply V. specialize (AL d n gr). unfold step in E. cbn [exec] in E. unfold chain_realloc in E.
    assert (FIN : forall r0 s1, alloc_align fuel g gr d n (clear_ev s) = Ok (r0, s1) -> In (EGet b z) (sevs s1) ->
      (ORealloc d p n gr = OAlloc d n (Some b) \/ (exists p0, ORealloc d p n gr = ORealloc d p0 n (Some b))) /\ z = ask_size d n /\ (huge d n \/ no_fit (smem s) o d n)).
    { intros r0 s1 E1 H1. destruct (AL r0 s1 V2 E1 H1) as (-> & K). split; [right; exists p; reflexivity|exact K]. }
    assert (FR : forall s1 t s2, chain_free fuel g p s1 = Ok (t, s2) -> In (EGet b z) (sevs s2) -> In (EGet b z) (sevs s1)).
    { intros s1 t s2 E1 H1. destruct (ev_free _ _ _ _ _ _ E1) as (evs & K1 & K2 & _). rewrite K1 in H1. apply in_app_or in H1 as [H1|H1]; [|exact H1].
      rewrite Forall_forall in K2. destruct (K2 _ H1) as (_ & []). }
    destruct ((p =? 0) && (n =? 0)); [injection E as _ <-; contradiction|].
    destruct (p =? 0); [exact (FIN _ _ E HI)|].
    destruct (n =? 0).
    { apply bind_ok in E as (t & s1 & E1 & E). injection E as _ <-. exfalso. exact (FR _ _ _ E1 HI). }
    apply bind_ok in E as (v & s1 & E1 & E). assert (ES : s1 = clear_ev s) by (eapply get_chunk_st; exact E1). subst s1.
    destruct (v =? 0); [destruct (cstrict g); [discriminate|injection E as _ <-; contradiction]|].
    apply bind_ok in E as (u & s1 & E2 & E). assert (ES : s1 = clear_ev s) by (eapply unpad_st; exact E2). subst s1.
    apply bind_ok in E as (us & s1 & E3 & E). assert (ES : s1 = clear_ev s) by (unfold vsize, get_size, loadn in E3; destruct (accb _ _ _); congruence). subst s1.
    apply bind_ok in E as (k & s1 & E4 & E).
    assert (ES : s1 = clear_ev s) by (destruct (_ && _) in E4; [destruct (cfactor g =? 0); [discriminate|]|]; injection E4 as _ <-; reflexivity). subst s1.
    destruct k; [injection E as _ <-; contradiction|].
    apply bind_ok in E as (r1 & s1 & E5 & E). apply bind_ok in E as (t1 & s2 & E6 & E). apply bind_ok in E as (t2 & s3 & E7 & E). injection E as _ <-.
    apply (FIN _ _ E5). apply (FR _ _ _ E7) in HI. destruct (r1 =? 0); [injection E6 as _ <-; exact HI|].
    unfold memcpy in E6. destruct (_ && _) in E6; [|discriminate]. injection E6 as _ <-. exact HI.
  - exfalso. unfold step in E. cbn [exec] in E. apply bind_ok in E as (t & s1 & E1 & E2). injection E2 as _ <-.
    rewrite (ev_user_refill _ _ _ _ _ _ E1) in HI. contradiction.
Qed.

(** So the source is never asked for a request that is not huge while a free piece has room for it. *)
Lemma no_ask_with_room g s o c fuel r s' d n w t : reach g s o -> valid g s o c -> step fuel g c s = Ok (r, s') ->
  (exists gr, c = OAlloc d n gr \/ exists p, c = ORealloc d p n gr) -> ~ huge d n ->
  In (w, t) (all_free (smem s) o) -> room d n <= t <= 2097152 -> forall b z, ~ In (EGet b z) (sevs s').
Proof.
  intros R V E Hc NH HI HT b z K. destruct (asks_when_full _ _ _ _ _ _ _ _ _ R V E K) as (d1 & n1 & H1 & _ & H2).
  assert (ED : d1 = d /\ n1 = n) by (destruct Hc as (gr & [-> |(p & ->)]); destruct H1 as [H1|(p1 & H1)]; try discriminate; injection H1; intros; subst; auto).
  destruct ED as (-> & ->). destruct H2 as [H2|H2]; [contradiction|]. specialize (H2 w t HI). lia.
Qed.

(** ** A null factor: the division by zero of the in-place test *)
Lemma wp_val {A} (x : M A) s v : wp x s (fun a s' => a = v /\ s' = s) -> x s = Ok (v, s).
Proof. unfold wp. destruct (x s) as [[a s']| | |]; try contradiction. intros (-> & ->). reflexivity. Qed.
Lemma realloc_null_factor g s o h p m d n gr fuel u : reach g s o -> In (mkBlk p m d) (live o) -> d <= 1 -> cfactor g = 0 ->
  usable s p u -> 0 < n <= u -> u - n <= cthresh g -> step fuel g (ORealloc h p n gr) s = UB.
Proof.
  intros R HI Hd Hf HU Hn Ht. destruct (reach_good _ _ _ R) as (A & F & G).
  assert (HB := in_or_app (live o) (pend o) _ (or_introl HI)). assert (Hp := block_pos _ _ _ R _ HB). cbn [bp] in Hp.
  destruct (block_info _ _ _ _ _ _ G HB) as (u1 & x & z & U1 & U2 & _). cbn [bp bn bd] in *.
  assert (u1 = u) by (eapply usable_eq; eauto). subst u1.
  set (s0 := clear_ev s). assert (W : World g (srng s0) (smem s0) A) by exact (good_world _ _ _ _ _ G).
  destruct (used_zip _ _ _ _ _ U2) as (S1 & b & z1 & l1 & c & l2 & S2 & EA & Ee).
  rewrite EA in W. assert (HC := world_chunk _ _ _ _ _ _ _ _ _ _ _ _ W eq_refl).
  destruct HC as (H1 & H2 & _ & (K1 & K2 & K3 & K4 & K5 & (K6 & _)) & H7 & H8 & H9 & H10 & _). specialize (K6 Hd).
  assert (G1 : get_chunk p s0 = Ok (p - 1, s0)) by (apply wp_val; eapply live_chunk; [exact W|reflexivity|auto]).
  assert (G2 : unpad_vchunk (p - 1) s0 = Ok (b + 32 + tot l1 + 15, s0)) by (apply wp_val; eapply live_unpad; [exact W|reflexivity|auto]).
  assert (G3 : vsize (b + 32 + tot l1 + 15) s0 = Ok (c, s0)) by (apply wp_val; eapply wp_vsize; [exact W|reflexivity|auto]).
  unfold step. fold s0. cbn [exec]. unfold chain_realloc. destruct (Z.eqb_spec p 0) as [E0|_]; [lia|]. cbn [andb].
  destruct (Z.eqb_spec n 0) as [E0|_]; [lia|]. unfold bind at 1. rewrite G1. cbn [rbind]. destruct (Z.eqb_spec (p - 1) 0) as [E0|_]; [lia|].
  unfold bind at 1. rewrite G2. cbn [rbind]. unfold bind at 1. rewrite G3. cbn [rbind]. cbv zeta.
  assert (BW := W64_val). unfold SZ_LARGE. rewrite (sub64_small c 16), (sub64_small (c - 16) n) by lia.
  replace ((n <=? c - 16) && (c - 16 - n <=? cthresh g)) with true by lia. rewrite Hf. reflexivity.
Qed.
