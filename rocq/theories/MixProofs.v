(** What a memory source changes on a chain that lives on buffers of the user. *)
From Verif Require Import Word Res Mem SizeClassModel SizeClassProofs ChainModel Wp ChainInv ChainZip ChainList ChainFl ChainPrim ChainFind ChainSplit ChainMerge ChainOps ChainAlloc ChainFree ChainSpec ChainCore ChainCoreFree ChainStep ChainRealloc ChainQueue ChainRefill ChainFuel ChainTrace ChainEv ChainCap MixSpec.
From Coq Require Import ZArith List Bool Lia Permutation.
Import ListNotations.
Open Scope Z_scope.

Lemma bind_same {X Y} (x : M X) (f f' : X -> M Y) s (Q : X -> st -> Prop) :
  wp x s Q -> (forall a s', Q a s' -> f a s' = f' a s') -> bind x f s = bind x f' s.
Proof. unfold wp, bind. destruct (x s) as [[a s']| | |]; cbn; auto. Qed.
Lemma bind_same_r {X Y} (x : M X) (f f' : X -> M Y) s : (forall a s', f a s' = f' a s') -> bind x f s = bind x f' s.
Proof. unfold bind. intros H. destruct (x s) as [[a s']| | |]; cbn; auto. Qed.

Lemma bind_same2 {X Y} (x x' : M X) (f f' : X -> M Y) s (Q : X -> st -> Prop) :
  x s = x' s -> wp x' s Q -> (forall a s', Q a s' -> f a s' = f' a s') -> bind x f s = bind x' f' s.
Proof. unfold wp, bind. intros ->. destruct (x' s) as [[a s']| | |]; cbn; auto; contradiction. Qed.
Lemma bind_ext {X Y} (x x' : M X) (f f' : X -> M Y) s : x s = x' s -> (forall a s', f a s' = f' a s') -> bind x f s = bind x' f' s.
Proof. unfold bind. intros -> H. destruct (x' s) as [[a s']| | |]; cbn; auto. Qed.

(** ** The functions that do not look at the source *)
Lemma ws_left g f : forall a c s, merge_left f (with_source g) a c s = merge_left f g a c s.
Proof.
  induction f as [|f IH]; intros a c s; [reflexivity|]. cbn [merge_left]. destruct (c =? 0); [reflexivity|].
  apply bind_same_r. intros x s1. destruct (x =? S_FREE); [|reflexivity]. do 3 (apply bind_same_r; intros ? ?). apply IH.
Qed.
Lemma ws_right g f : forall a c s, merge_right f (with_source g) a c s = merge_right f g a c s.
Proof.
  induction f as [|f IH]; intros a c s; [reflexivity|]. cbn [merge_right]. destruct (c =? 0); [reflexivity|].
  apply bind_same_r. intros x s1. destruct (x =? S_FREE); [|reflexivity]. do 3 (apply bind_same_r; intros ? ?). apply IH.
Qed.
Lemma ws_merge f g v s : merge_chunk f (with_source g) v s = merge_chunk f g v s.
Proof.
  unfold merge_chunk. do 3 (apply bind_same_r; intros ? ?). apply bind_ext; [apply ws_left|]. intros ? ?.
  apply bind_same_r; intros ? ?. apply bind_ext; [apply ws_right|]. reflexivity.
Qed.
Lemma ws_first g n : forall i s, first_non_empty_loop (with_source g) n i s = first_non_empty_loop g n i s.
Proof.
  induction n as [|n IH]; intros i s; [reflexivity|]. cbn [first_non_empty_loop]. apply bind_same_r. intros x s1.
  destruct (_ : bool); [reflexivity|apply IH].
Qed.
Lemma ws_insert g c i : free_list_insert (with_source g) c i = free_list_insert g c i.
Proof. reflexivity. Qed.
Lemma ws_find f g n s : find_free_chunk f (with_source g) n s = find_free_chunk f g n s.
Proof.
  unfold find_free_chunk. cbv zeta. apply bind_same_r. intros i s1. apply bind_ext; [unfold first_non_empty; apply ws_first|]. reflexivity.
Qed.
Lemma ws_refill g b z : user_refill (with_source g) b z = user_refill g b z.
Proof. reflexivity. Qed.

Definition smallA (A : list seg) : Prop := forall sg, In sg A -> gsize sg <= 1048576.

(** ** Frees *)
Lemma free_same fuel g s B A F p n d : Core g s B A F -> csrc g = false -> smallA A -> In (mkBlk p n d) B -> bytes A < Z.of_nat fuel ->
  chain_free fuel (with_source g) p s = chain_free fuel g p s.
Proof.
  intros C Hc HS HB Hf. assert (IV := co_inv _ _ _ _ _ C).
  destruct (core_in _ _ _ _ _ _ _ _ C HB) as (e & HU).
  destruct (used_zip _ _ _ _ _ HU) as (S1 & b & z & l1 & c & l2 & S2 & EA & Ee). subst A.
  assert (HZ : z <= 1048576) by (apply (HS (mkSeg b z (l1 ++ (c, Us p n d) :: l2))); apply in_or_app; right; left; reflexivity).
  assert (LEN := chain_len _ _ _ _ _ _ _ _ IV). rewrite app_length in LEN. cbn [length] in LEN.
  assert (W0 := iv_w _ _ _ _ IV). assert (IV1 := inv_us_lk _ _ _ _ _ _ _ _ _ _ _ _ _ IV).
  set (a := b + 32 + tot l1). assert (Ea : a = b + 32 + tot l1) by reflexivity.
  assert (HC := world_chunk _ _ _ _ _ _ _ _ _ _ _ _ W0 Ea).
  destruct HC as (H1 & H2 & (H3 & H4 & H5) & (K1 & K2 & K3 & K4 & K5 & _) & H7 & H8 & H9 & H10 & H11 & _ & _ & _ & _ & HT1).
  assert (EZ : z = 48 + tot l1 + c + tot l2 /\ 0 <= tot l1 /\ 0 <= tot l2).
  { assert (SG : segok g (smem s) (mkSeg b z (l1 ++ (c, Us p n d) :: l2))).
    { eapply w_segok; [exact W0|]. apply in_or_app. right. left. reflexivity. }
    destruct SG as (_ & _ & Q3 & _ & _ & Q6 & _). cbn [gsize gchunks gbase] in *. rewrite tot_app in Q3. cbn [tot] in Q3.
    apply cks_app in Q6 as (Q6 & Q7). cbn [cks] in Q7. destruct Q7 as (_ & _ & _ & _ & Q7). apply cks_tot in Q6. apply cks_tot in Q7. lia. }
  unfold chain_free. destruct (Z.eqb_spec p 0); [lia|].
  eapply bind_same; [eapply (live_chunk_unpadded g s S1 b z l1 c p n d l2 S2 a (fun v s' => v = a + 15 /\ s' = s)); [exact W0|exact Ea|auto]|].
  intros v s' (-> & ->). destruct (Z.eqb_spec (a + 15) 0); [lia|].
  eapply bind_same; [eapply (wp_get_state s (a + 15) _ (fun v s' => v = S_ALLOC /\ s' = s)); [eapply accb_intro; [exact H11|lia|lia]|exact H5|split; reflexivity]|].
  intros v s' (-> & ->).
  eapply bind_same; [apply (wp_assume (S_ALLOC =? S_ALLOC) s (fun _ s' => s' = s)); reflexivity|]. intros ? s' ->.
  eapply bind_same; [eapply (wp_vsize g s S1 b z l1 c (Us p n d) l2 S2 a (fun v s' => v = c /\ s' = s)); [exact W0|exact Ea|auto]|].
  intros v s' (-> & ->).
  assert (EH : is_huge (with_source g) c = false).
  { unfold is_huge. rewrite calc_small by (assert (BW := W64_val); assert (BS := S63_val); lia). unfold HUGE_LIMIT. cbn [csrc with_source andb]. lia. }
  assert (EH' : is_huge g c = false) by (unfold is_huge; rewrite Hc; reflexivity). rewrite EH, EH'.
  eapply bind_same; [apply (wp_getst s (fun v s' => v = s /\ s' = s)); auto|]. intros v s' (-> & ->).
  eapply (bind_same _ _ _ _ (fun _ s' => s' = s)).
  { destruct (Z.eqb_spec (sbase s) 0) as [E|E]; cbn [negb]; [apply wp_ret; reflexivity|].
    destruct (iv_base _ _ _ _ IV) as [K|(sg & KS & KB)]; [contradiction|].
    assert (KO := w_segok _ _ _ _ W0 _ KS). assert (KR := w_in_rng _ _ _ _ W0 _ KS).
    destruct KO as (J1 & J2 & J3 & (J4 & J5 & J6) & J7 & J8 & J9). assert (T := cks_tot _ _ _ _ J8).
    apply wp_bind. apply (wp_get_chunk s (sbase s + SZ_LARGE) 133); auto; unfold SZ_LARGE.
    - lia.
    - eapply accb_intro; [exact KR|lia|lia].
    - rewrite <- KB. replace (gbase sg + 16 - 1) with (gbase sg + 15) by lia. exact J6.
    - apply wp_ret. reflexivity. }
  intros _ s' ->. cbn [cmerge with_source].
  eapply (bind_same2 _ _ _ _ _ (fun v s' => exists l1' t l2' F', v = b + 32 + tot l1' + 15 /\ Inv g s' (S1 ++ mkSeg b z (l1' ++ (t, Lk) :: l2') :: S2) F')).
  { destruct (cmerge g); [apply ws_merge|reflexivity]. }
  { destruct (cmerge g) eqn:Ecm.
    - eapply wp_mono; [eapply (merge_spec g s F S1 b z l1 c l2 S2 a fuel); [exact IV1|exact Ea|lia|lia]|].
      intros v s' (l1' & fl & fr & l2' & F' & Q1 & Q2 & Q3 & Q4 & Q5 & Q6 & Q7 & Q8 & Q9 & Q10).
      exists l1', (tot fl + c + tot fr), l2', F'. auto.
    - apply wp_ret. exists l1, c, l2, F. split; [lia|exact IV1]. }
  intros v s1 (l1' & t & l2' & F1 & -> & IV2). assert (W1 := iv_w _ _ _ _ IV2).
  eapply bind_same; [eapply (wp_vsize g s1 S1 b z l1' t Lk l2' S2 _ (fun v s' => v = t /\ s' = s1)); [exact W1|reflexivity|auto]|].
  intros v s' (-> & ->). rewrite Hc. cbn [csrc with_source andb].
  assert (ET : 0 < t <= z - 48).
  { assert (SG : segok g (smem s1) (mkSeg b z (l1' ++ (t, Lk) :: l2'))).
    { eapply w_segok; [exact W1|]. apply in_or_app. right. left. reflexivity. }
    destruct SG as (_ & _ & Q3 & _ & _ & Q6 & _). cbn [gsize gchunks gbase] in *. rewrite tot_app in Q3. cbn [tot] in Q3.
    apply cks_app in Q6 as (Q6 & Q7). cbn [cks] in Q7. destruct Q7 as (Q8 & _ & _ & _ & Q7). apply cks_tot in Q6. apply cks_tot in Q7. lia. }
  replace (t mod MACRO_BLOC =? MACRO_BLOC - SZ_MACRO - SZ_LARGE) with false; [reflexivity|].
  symmetry. apply Z.eqb_neq. clear - ET HZ. unfold MACRO_BLOC, SZ_MACRO, SZ_LARGE. rewrite Z.mod_small by lia. lia.
Qed.

(** ** Allocations *)
Lemma alloc_same fuel g s B A F o d n : Core g s B A F -> csrc g = false -> smallA A -> segs o = map segr A ->
  request_ok g o d n None -> bytes A < Z.of_nat fuel ->
  alloc_align fuel (with_source g) None d n s = alloc_align fuel g None d n s.
Proof.
  intros C Hc HS HO HR Hf. assert (HR' := HR). destruct HR' as (R1 & R2 & R3 & _). destruct (pow2_bd _ R2) as (D0 & _). change (2 ^ 63) with S63 in R3.
  assert (AC := alloc_core fuel g s B A F o None d n C HO HR). rewrite Hc in AC. specialize (AC ltac:(lia)).
  revert AC. unfold alloc_align. destruct (Z.eqb_spec n 0) as [En|En]; [reflexivity|]. cbv zeta.
  assert (BW := W64_val). assert (BS := S63_val).
  assert (EA : (if 1 <? d then add64 n d else n) = asked d n).
  { unfold asked. destruct (1 <? d); [|reflexivity]. apply add64_small. lia. }
  rewrite EA. assert (AB : 0 <= asked d n < S63 - 16) by (unfold asked; destruct (1 <? d); lia).
  assert (EH' : is_huge g (asked d n) = false) by (unfold is_huge; rewrite Hc; reflexivity). rewrite EH'.
  destruct (is_huge (with_source g) (asked d n)) eqn:EH.
  - unfold is_huge in EH. cbn [csrc with_source andb] in EH. rewrite calc_small in EH by lia. unfold HUGE_LIMIT in EH.
    assert (EL : forall s1, bind (request_mem (with_source g) None (asked d n)) (fun v => bind (if 1 <? d then setup_chunk_padded v d else ret v) (fun v0 => ret (chunk_body v0))) s1 = Ok (0, s1)).
    { intros s1. assert (EQ : request_mem (with_source g) None (asked d n) s1 = Ok (0, s1)) by reflexivity.
      assert (EP : forall s2, setup_chunk_padded 0 d s2 = Ok (0, s2)) by (intros; unfold setup_chunk_padded; change (0 =? 0) with true; cbn [negb]; rewrite andb_false_r; reflexivity).
      unfold bind. rewrite EQ. cbn [rbind]. destruct (1 <? d); [rewrite EP|]; reflexivity. }
    rewrite EL. intros AC. apply wp_run in AC as (r & s1 & E & A' & F' & evs & C' & T & _ & R0 & RN). rewrite E.
    destruct (Z.eq_dec r 0) as [Er|Er]; [destruct (R0 Er) as (-> & _); rewrite Er; reflexivity|]. exfalso.
    destruct (RN Er) as (_ & _ & _ & [(_ & w & c & J1 & J2)|(b & J & _)]); [|congruence].
    destruct (frees_16 _ _ _ _ _ _ (iv_w _ _ _ _ (co_inv _ _ _ _ _ C)) J1) as (_ & _ & sg & Q1 & Q2 & Q3).
    specialize (HS _ Q1). change (padsz d n) with (asked d n) in J2. rewrite calc_small in J2 by lia. lia.
  - intros _. apply bind_ext; [apply ws_find|]. intros c s1. apply bind_ext.
    + destruct (c =? 0); [|reflexivity]. unfold refill_mem, request_mem. rewrite Hc. reflexivity.
    + intros c' s2. reflexivity.
Qed.

(** ** Reallocations *)
Lemma small_segs A A' : map segr A' = map segr A -> smallA A -> smallA A'.
Proof.
  intros E H sg HI. assert (K : In (segr sg) (map segr A)) by (rewrite <- E; apply in_map; exact HI).
  apply in_map_iff in K as (sg0 & K1 & K2). specialize (H _ K2). unfold segr in K1. injection K1 as K3 K4. lia.
Qed.
Lemma realloc_same fuel g s B A F o h p n : Core g s B A F -> csrc g = false -> smallA A -> segs o = map segr A ->
  (p = 0 \/ exists m d, In (mkBlk p m d) B /\ d <= 1) -> request_ok g o h n None -> 0 < cfactor g -> bytes A < Z.of_nat fuel ->
  chain_realloc fuel (with_source g) None h p n s = chain_realloc fuel g None h p n s.
Proof.
  intros C Hc HS HO V1 HR HF Hf. assert (HA : alloc_align fuel (with_source g) None h n s = alloc_align fuel g None h n s) by (eapply alloc_same; eassumption).
  unfold chain_realloc. destruct ((p =? 0) && (n =? 0)); [reflexivity|]. destruct (Z.eqb_spec p 0) as [Ep|Ep]; [exact HA|].
  destruct V1 as [V1|(m0 & d0 & V1 & Vd)]; [contradiction|].
  destruct (n =? 0); [apply bind_ext; [eapply free_same; eassumption|reflexivity]|].
  assert (IV := co_inv _ _ _ _ _ C). assert (W := iv_w _ _ _ _ IV).
  destruct (core_in _ _ _ _ _ p m0 d0 C V1) as (e & HU).
  destruct (used_zip _ _ _ _ _ HU) as (S1 & b & z & l1 & c & l2 & S2 & EA & Ee).
  assert (W0 := W). rewrite EA in W0.
  assert (HC := world_chunk _ _ _ _ _ _ _ _ _ _ _ _ W0 eq_refl).
  destruct HC as (H1 & H2 & _ & (K1 & K2 & K3 & K4 & K5 & (K6 & _)) & H7 & H8 & H9 & H10 & _). specialize (K6 Vd).
  assert (BW := W64_val). assert (BS := S63_val).
  assert (HR' := HR). destruct HR' as (R1 & R2 & R3 & R45). change (2 ^ 63) with S63 in R3. assert (R2' := pow2_bd _ R2).
  eapply (bind_same _ _ _ _ (fun v s' => v = p - 1 /\ s' = s)); [eapply live_chunk; [exact W0|reflexivity|auto]|]. intros v s' (-> & ->).
  destruct (Z.eqb_spec (p - 1) 0); [lia|].
  eapply (bind_same _ _ _ _ (fun v s' => v = b + 32 + tot l1 + 15 /\ s' = s)); [eapply live_unpad; [exact W0|reflexivity|auto]|]. intros v s' (-> & ->).
  eapply (bind_same _ _ _ _ (fun v s' => v = c /\ s' = s)); [eapply wp_vsize; [exact W0|reflexivity|auto]|]. intros v s' (-> & ->).
  cbv zeta. unfold SZ_LARGE. rewrite (sub64_small c 16) by lia. cbn [cthresh cfactor with_source].
  eapply (bind_same _ _ _ _ (fun (_ : bool) s' => s' = s)).
  { destruct ((n <=? c - 16) && (sub64 (c - 16) n <=? cthresh g)); [|apply wp_ret; reflexivity].
    destruct (Z.eqb_spec (cfactor g) 0); [lia|]. apply wp_ret. reflexivity. }
  intros keep s' ->. destruct keep; [reflexivity|].
  eapply bind_same2; [exact HA|eapply (alloc_core fuel g s B A F o None h n); [exact C|exact HO|exact HR|rewrite Hc; lia]|].
  intros r s1 (A1 & F1 & evs1 & C1 & T1 & B1 & R0 & RN). cbv beta in *. rewrite Hc in B1.
  assert (EV : evs1 = []).
  { destruct (Z.eq_dec r 0) as [Er|Er].
    - destruct (R0 Er) as (E & _). destruct T1 as (T1 & _). rewrite E in T1. apply (f_equal (@length ev)) in T1. rewrite app_length in T1. destruct evs1; [reflexivity|cbn [length] in T1; lia].
    - destruct (RN Er) as (_ & _ & _ & [(E & _)|(b0 & E & _)]); [exact E|congruence]. }
  assert (HS1 : smallA A1).
  { destruct T1 as (_ & T1 & _). rewrite EV in T1. cbn [fold_right] in T1. eapply small_segs; [exact T1|exact HS]. }
  eapply (bind_same _ _ _ _ (fun _ s2 => exists B2, Core g s2 B2 A1 F1 /\ In (mkBlk p m0 d0) B2)).
  { destruct (Z.eqb_spec r 0) as [Er|Er]; [apply wp_ret; exists B; auto|].
    destruct (RN Er) as (_ & RF & (e1 & HR1 & HFT) & RE).
    assert (W1 := iv_w _ _ _ _ (co_inv _ _ _ _ _ C1)). destruct T1 as (T1a & T1b & T1c & T1d & T1e & T1f).
    destruct (T1e p m0 d0 e HU ltac:(auto)) as (HU1 & HP1).
    assert (NRP : r <> p) by (intros ->; exact (RF _ _ _ HU)).
    destruct (used_in _ _ _ _ _ _ _ _ W1 HU1) as (sgp & I1 & I2 & I3 & I4 & I5 & I6).
    destruct (used_in _ _ _ _ _ _ _ _ W1 HR1) as (sgr & L1 & L2 & L3 & L4 & L5 & L6).
    set (cnt := if c - 16 <? n then c - 16 else n).
    assert (HCN : 0 <= cnt /\ p + cnt <= e /\ r + cnt <= e1 /\ cnt = Z.min (e - p) n) by (unfold cnt; destruct (c - 16 <? n) eqn:EE; lia).
    assert (SEP : e <= r - 16 \/ e1 <= p - 16).
    { apply (used_gap _ _ _ _ _ _ _ _ _ _ _ _ W1 HU1 HR1). congruence. }
    unfold memcpy at 1. unfold wp at 1.
    assert (MC : accb (srng s1) p cnt && accb (srng s1) r cnt && ((p + cnt <=? r) || (r + cnt <=? p) || (cnt =? 0)) = true).
    { rewrite (accb_intro _ (gbase sgp) (gsize sgp)) by (try apply (w_in_rng _ _ _ _ W1 _ I1); lia).
      rewrite (accb_intro _ (gbase sgr) (gsize sgr)) by (try apply (w_in_rng _ _ _ _ W1 _ L1); lia). cbn [andb]. lia. }
    rewrite MC. exists (mkBlk r n h :: B). split; [|right; exact V1].
    apply core_write; [exact C1|]. intros x. destruct ((r <=? x) && (x <? r + cnt)) eqn:EE; [right|left; reflexivity].
    eapply used_not_scratch; [exact W1|exact HR1|]. destruct HCN as (_ & _ & N3 & _). clear - EE N3. lia. }
  intros _ s2 (B2 & C2 & HB2). apply bind_ext; [|reflexivity]. eapply free_same; [exact C2|exact Hc|exact HS1|exact HB2|lia].
Qed.

(** ** Collection of remote frees *)
Lemma purge_same fuel g Lv L : csrc g = false -> forall qfuel s A F, Core g s (Lv ++ L) A F -> smallA A -> qok (smem s) (map bp L) ->
  bytes A < Z.of_nat fuel ->
  purge_loop fuel qfuel (with_source g) (hd 0 (map bp L)) s = purge_loop fuel qfuel g (hd 0 (map bp L)) s.
Proof.
  intros Hc. induction L as [|[p n d] L IH]; intros qfuel s A F C HS Q Hf; (destruct qfuel as [|qfuel]; [reflexivity|]).
  - reflexivity.
  - cbn [map hd purge_loop bp]. cbn [map qok bp] in Q. destruct Q as (Q1 & Q2 & Q3).
    assert (HB : In (mkBlk p n d) (Lv ++ mkBlk p n d :: L)) by (apply in_mid; left; reflexivity).
    assert (P0 := core_pos _ _ _ _ _ _ _ _ C HB).
    destruct (core_in _ _ _ _ _ _ _ _ C HB) as (e & HU). assert (W := iv_w _ _ _ _ (co_inv _ _ _ _ _ C)).
    destruct (used_in _ _ _ _ _ _ _ _ W HU) as (sg & I1 & I2 & I3 & I4 & I5 & I6).
    destruct (Z.eqb_spec p 0); [lia|].
    eapply (bind_same _ _ _ _ (fun v s' => v = hd 0 (map bp L) /\ s' = s)).
    { apply wp_load; [eapply accb_intro; [apply (w_in_rng _ _ _ _ W _ I1)| |]; cbn; lia|]. split; [exact Q1|reflexivity]. }
    intros v s' (-> & ->).
    eapply (bind_same _ _ _ _ (fun v s' => v = p /\ s' = s)).
    { apply wp_load; [eapply accb_intro; [apply (w_in_rng _ _ _ _ W _ I1)| |]; cbn; lia|]. split; [exact Q2|reflexivity]. }
    intros v s' (-> & ->).
    eapply bind_same2; [eapply free_same; eassumption|eapply (free_core fuel g s _ A F p n d); [exact C|exact HB|exact Hf]|].
    intros _ s1 (A1 & F1 & evs1 & C1 & T1 & B1 & _ & e' & a' & _ & _ & _ & _ & FR).
    assert (ND := core_nodup _ _ _ _ _ C).
    rewrite (rm_mid (mkBlk p n d) Lv L ND : rm p _ = _) in C1.
    rewrite map_app in ND. cbn [map bp] in ND. assert (N1 := NoDup_remove_2 _ _ _ ND).
    assert (QN : qok (smem s1) (map bp L)).
    { eapply qok_frame; [|exact Q3]. intros q x Hq' Hx. apply in_map_iff in Hq' as ([q' n' d'] & E & Hq'). cbn [bp] in E. subst q'.
      destruct (core_in _ _ _ _ _ q n' d' C) as (e2 & HU'); [apply in_or_app; right; right; exact Hq'|].
      destruct T1 as (_ & _ & _ & _ & T5 & _). destruct (T5 _ _ _ _ HU') as (_ & K).
      { intros ->. apply N1. apply in_or_app. right. apply in_map_iff. exists (mkBlk p n' d'). auto. }
      apply K. destruct (used_in _ _ _ _ _ _ _ _ W HU') as (_ & _ & _ & J & _). lia. }
    assert (EV : evs1 = []) by (destruct FR as [(K & _)|[(K & _)|(K & _)]]; [congruence|congruence|exact K]).
    apply (IH qfuel s1 A1 F1); [exact C1| |exact QN|lia].
    destruct T1 as (_ & T1 & _). rewrite EV in T1. cbn [fold_right] in T1. eapply small_segs; [exact T1|exact HS].
Qed.

(** ** Calls *)
Lemma exec_same fuel g s o A F c : Good g s o A F -> csrc g = false -> smallA A -> valid g s o c -> small_call c -> fuel_ok g o c fuel ->
  exec fuel (with_source g) c (clear_ev s) = exec fuel g c (clear_ev s).
Proof.
  intros G Hc HS V Q HF. assert (C0 := core_clear _ _ _ _ _ (gd_core _ _ _ _ _ G)). assert (HO := gd_segs _ _ _ _ _ G).
  assert (HB : bytes A < Z.of_nat fuel).
  { unfold fuel_ok in HF. rewrite (held_bytes _ _ HO) in HF. revert HF. destruct c; cbn [extra]; rewrite ?Hc; try lia.
    cbn [valid] in V. destruct V as (_ & [(-> & ->)|V]); [lia|]. destruct V as (_ & _ & _ & _ & V & _). lia. }
  destruct c as [d n gr|p|h p n gr|b z|x v|p| |m]; cbn [exec]; [| | |apply bind_ext; [rewrite ws_refill; reflexivity|reflexivity]|reflexivity|reflexivity| |reflexivity].
  - cbn [small_call] in Q. subst gr. eapply alloc_same; eassumption.
  - apply bind_ext; [|reflexivity]. cbn [valid] in V. destruct V as [->|(n & d & V)]; [reflexivity|].
    eapply free_same; [exact C0|exact Hc|exact HS|apply in_or_app; left; exact V|exact HB].
  - cbn [small_call] in Q. subst gr. cbn [valid] in V. destruct V as (V1 & V2 & V3).
    eapply realloc_same; [exact C0|exact Hc|exact HS|exact HO| |exact V2|exact V3|exact HB].
    destruct V1 as [V1|(m & d & V1 & Vd)]; [left; exact V1|right; exists m, d; split; [apply in_or_app; left; exact V1|exact Vd]].
  - apply bind_ext; [|reflexivity]. unfold purge_rfq. apply bind_same with (Q := fun v s' => v = clear_ev s /\ s' = clear_ev s); [apply wp_getst; auto|].
    intros v s' (-> & ->). assert (Q0 : Queue (clear_ev s) (map bp (pend o))) by exact (gd_queue _ _ _ _ _ G). destruct Q0 as (Q1 & Q2 & Q3). rewrite Q1.
    destruct (hd 0 (map bp (pend o)) =? 0); [reflexivity|].
    apply bind_same with (Q := fun _ s' => s' = set_rq (clear_ev s) 0 0); [apply wp_modst; reflexivity|]. intros _ s' ->.
    apply (purge_same fuel g (live o) (pend o) Hc fuel _ A F); [apply core_rq; exact C0|exact HS|exact Q3|exact HB].
Qed.

Lemma good_small g s o A F : Good g s o A F -> (forall b z, In (b, z) (segs o) -> z <= 1048576) -> smallA A.
Proof. intros G H sg HI. apply (H (gbase sg)). rewrite (gd_segs _ _ _ _ _ G). exact (in_map segr _ _ HI). Qed.

Lemma src_step_same g s o c fuel : reach g s o -> csrc g = false -> (forall b z, In (b, z) (segs o) -> z <= 1048576) ->
  valid g s o c -> small_call c -> fuel_ok g o c fuel -> step fuel (with_source g) c s = step fuel g c s.
Proof. intros R Hc HS V Q HF. destruct (reach_good _ _ _ R) as (A & F & G). eapply exec_same; eauto using good_small. Qed.

Lemma src_step_any g s o c fuel r s' : reach g s o -> csrc g = false -> (forall b z, In (b, z) (segs o) -> z <= 1048576) ->
  valid g s o c -> small_call c -> step fuel (with_source g) c s = Ok (r, s') -> exists f, step f g c s = Ok (r, s').
Proof.
  intros R Hc HS V Q E. set (f := Nat.max fuel (Z.to_nat (held o + extra g c + 1))).
  assert (FO : fuel_ok g o c f) by (unfold fuel_ok, f; lia). exists f. rewrite <- (src_step_same g s o c f R Hc HS V Q FO).
  unfold step in *. destruct (exec_fuel fuel f (with_source g) c ltac:(unfold f; lia) (clear_ev s)) as [K|K]; [congruence|]. rewrite K. exact E.
Qed.

Lemma step_noev g s o c fuel r s' : reach g s o -> csrc g = false -> step fuel g c s = Ok (r, s') -> sevs s' = [].
Proof. intros R Hc E. unfold step in E. rewrite (exec_nosrc _ _ _ _ _ _ Hc E). reflexivity. Qed.

Lemma mixed_reach g s o : mixed g s o -> csrc g = false -> reach g s o /\ forall b z, In (b, z) (segs o) -> z <= 1048576.
Proof.
  intros H Hc. induction H as [m s W E|s o fuel c r s' H IH V Q E].
  - split; [eapply reach_init; eassumption|]. intros b z [].
  - destruct (IH) as (R & HS). destruct (src_step_any _ _ _ _ _ _ _ R Hc HS V Q E) as (f & Ef). split; [eapply reach_step; eassumption|].
    assert (EV := step_noev _ _ _ _ _ _ _ R Hc Ef). rewrite EV. intros b z HI.
    destruct c; cbn [next segs fold_right] in HI; try exact (HS _ _ HI).
    destruct (buf =? 0); [exact (HS _ _ HI)|]. destruct HI as [K|HI]; [|exact (HS _ _ HI)]. injection K as <- <-. exact Q.
Qed.

Lemma mixed_quiet g s o c fuel : mixed g s o -> csrc g = false -> valid g s o c -> small_call c -> fuel_ok g o c fuel ->
  step fuel (with_source g) c s = step fuel g c s /\ exists r s', step fuel g c s = Ok (r, s') /\ sevs s' = [].
Proof.
  intros H Hc V Q HF. destruct (mixed_reach _ _ _ H Hc) as (R & HS). split; [eapply src_step_same; eassumption|].
  destruct (reach_good _ _ _ R) as (A & F & G). destruct (wp_run _ _ _ (step_all fuel g s o A F c G V HF)) as (r & s' & E & _).
  exists r, s'. split; [exact E|]. eapply step_noev; eassumption.
Qed.
