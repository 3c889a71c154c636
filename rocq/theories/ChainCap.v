(** Capacity: when allocation succeeds, what frees and refills give back. *)
From Verif Require Import Word Res Mem SizeClassModel SizeClassProofs ChainModel Wp ChainInv ChainZip ChainList ChainFl ChainPrim ChainFind ChainSplit ChainMerge ChainOps ChainAlloc ChainFree ChainSpec ChainCore ChainCoreFree ChainStep ChainRealloc ChainQueue ChainRefill ChainFuel ChainTrace ChainEv ChainProps ChainWalk.
From Coq Require Import ZArith List Bool Lia Permutation.
Import ListNotations.
Open Scope Z_scope.

(** ** Size of the segments *)
Lemma good_seg g s o A F x z : Good g s o A F -> In (x, z) (segs o) -> exists sg, In sg A /\ x = gbase sg /\ z = gsize sg.
Proof. intros G H. rewrite (gd_segs _ _ _ _ _ G) in H. apply in_map_iff in H as (sg & E & H). injection E as <- <-. exists sg. auto. Qed.

Lemma segs_nosrc o c r : segs (next o c r []) = segs o \/ exists b z, c = ORefill b z /\ b <> 0 /\ segs (next o c r []) = (b, z) :: segs o.
Proof.
  destruct c as [d n gr|p|h p n gr|b z|x v|p| |m]; cbn [next segs fold_right]; auto.
  destruct (Z.eqb_spec b 0); [auto|right; exists b, z; auto].
Qed.

Lemma seg_big g s o : reach g s o -> forall x z, In (x, z) (segs o) -> 80 < z.
Proof.
  destruct (csrc g) eqn:Hc.
  - intros R x z H. destruct (reach_good _ _ _ R) as (A & F & G). destruct (good_seg _ _ _ _ _ _ _ G H) as (sg & H1 & -> & ->).
    destruct (co_src _ _ _ _ _ (gd_core _ _ _ _ _ G) Hc) as (_ & _ & SH). destruct (SH _ H1) as (K1 & _).
    destruct (w_segok _ _ _ _ (good_world _ _ _ _ _ G) _ H1) as (_ & _ & K3 & _ & _ & K6 & _). apply cks_tot in K6. unfold MACRO_BLOC in K1. lia.
  - intros R. induction R as [m s Hg E|s o fuel c r s' H IH V E]; intros x z HI; [contradiction|].
    assert (EV := exec_nosrc _ _ _ _ _ _ Hc E). cbn [clear_ev sevs] in EV. rewrite EV in HI.
    destruct (segs_nosrc o c r) as [K|(b & z0 & Ec & Hb & K)]; rewrite K in HI; [eauto|].
    destruct HI as [E1|HI]; [|eauto]. injection E1 as -> ->. subst c. destruct V as (_ & [(V & _)|V]); [contradiction|].
    destruct V as (_ & _ & _ & _ & V & _). exact V.
Qed.

(** ** Requests *)
Lemma room_calc g o d n gr : request_ok g o d n gr -> forall c, c mod 16 = 0 -> (calc_chunk_size (padsz d n) <= c <-> room d n <= c).
Proof.
  intros (R1 & R2 & R3 & _) c Hc. apply pow2_bd in R2 as (D0 & _). change (2 ^ 63) with S63 in R3.
  assert (BS := S63_val). assert (0 <= padsz d n < S63 - 64) by (unfold padsz; destruct (1 <? d); lia).
  rewrite calc_small by lia. unfold room. change (asked d n) with (padsz d n). lia.
Qed.

(** Result of an allocation call in a reachable state. *)
Definition no_fit (m : mem) (o : obs) (d n : Z) : Prop := forall w c, In (w, c) (all_free m o) -> c <= 2097152 -> c < room d n.
Lemma frees_16 g r m A w c : World g r m A -> In (w, c) (frees A) -> c mod 16 = 0 /\ 32 <= c /\ exists sg, In sg A /\ gbase sg + 32 <= w /\ w + c <= gbase sg + gsize sg - 16.
Proof.
  intros W H. unfold frees in H. apply in_flat_map in H as (sg & H1 & H2).
  destruct (w_segok _ _ _ _ W _ H1) as (_ & _ & K3 & _ & _ & K6 & _).
  assert (R := cells_range _ _ _ _ _ _ K6 (frees_cells _ _ _ _ H2)). split; [lia|]. split; [lia|]. exists sg. split; [exact H1|lia].
Qed.

Lemma alloc_info g s o d n gr fuel r s' : reach g s o -> valid g s o (OAlloc d n gr) -> step fuel g (OAlloc d n gr) s = Ok (r, s') ->
  (r = 0 -> s' = clear_ev s /\ (n = 0 \/ (csrc g = true /\ gr = None /\ (huge d n \/ no_fit (smem s) o d n)) \/ (csrc g = false /\ no_fit (smem s) o d n))) /\
  (r <> 0 -> 1 <= n /\
     ((sevs s' = [] /\ exists w c, In (w, c) (all_free (smem s) o) /\ room d n <= c) \/
      (exists b, csrc g = true /\ gr = Some b /\ sevs s' = [EGet b (ask_size d n)] /\ (huge d n \/ no_fit (smem s) o d n)))).
Proof.
  intros R V E. destruct (reach_good _ _ _ R) as (A & F & G). unfold no_fit. rewrite (all_free_eq _ _ _ _ _ G).
  assert (W := good_world _ _ _ _ _ G).
  assert (RC := room_calc g o d n gr V).
  assert (NF : (forall a c, In (a, c) (frees A) -> c <= MACRO_BLOC -> c < calc_chunk_size (padsz d n)) ->
               (forall w c, In (w, c) (frees A) -> c <= 2097152 -> c < room d n)).
  { intros H w c HI Hc. destruct (frees_16 _ _ _ _ _ _ W HI) as (K1 & _). specialize (H w c HI Hc). specialize (RC c K1). lia. }
  pattern r, s'. eapply (step_any fuel g s o (OAlloc d n gr) r s'); [|exact E]. cbv beta.
  intros f Hf. cbn [exec]. unfold fuel_ok in Hf. cbn [extra] in Hf. rewrite (held_bytes _ _ (gd_segs _ _ _ _ _ G)) in Hf.
  eapply wp_mono; [eapply (alloc_core f g (clear_ev s) _ A F o gr d n); [apply core_clear; exact (gd_core _ _ _ _ _ G)|exact (gd_segs _ _ _ _ _ G)|exact V|exact Hf]|].
  intros r1 s1 (A1 & F1 & evs & C1 & T & _ & H0 & H1). destruct T as (T & _). cbn [clear_ev sevs] in T. rewrite app_nil_r in T. split.
  - intros Er. destruct (H0 Er) as (Es & _ & _ & K). split; [exact Es|].
    destruct K as [K|[(K1 & K2 & [K3|K3])|(K1 & K2)]]; [left; exact K|right; left; exact (conj K1 (conj K2 (or_introl K3)))|right; left; exact (conj K1 (conj K2 (or_intror (NF K3))))|right; right; exact (conj K1 (NF K2))].
  - intros Er. destruct (H1 Er) as (K1 & _ & _ & K2). split; [exact K1|]. rewrite T. destruct K2 as [(K2 & w & c & K3 & K4)|(b & K2 & K3 & K4 & K5)].
    + left. split; [exact K2|]. exists w, c. split; [exact K3|]. apply RC; [apply (frees_16 _ _ _ _ _ _ W K3)|exact K4].
    + right. exists b. split; [exact K2|]. split; [exact K3|]. split; [exact K4|]. destruct K5 as [K5|K5]; [left; exact K5|right; exact (NF K5)].
Qed.

(** ** C07 *)
Lemma gap_free m l : forall a pv w k, cks m a pv l -> noadj l -> 0 < k -> a <= w -> w + k <= a + tot l ->
  (forall v c, In (v, c) (busy_from a l) -> w + k <= v \/ v + c <= w) ->
  exists v c, In (v, c) (frees_from a l) /\ v <= w /\ w + k <= v + c.
Proof.
  induction l as [|[c kd] l IH]; intros a pv w k H N Hk Ha He HB; cbn [cks noadj tot busy_from frees_from] in *; [lia|].
  destruct H as (H1 & H2 & H3 & H4 & H5). destruct N as (N1 & N2).
  assert (TAIL : a + c <= w -> exists v c0, In (v, c0) (match kd with Fr => [(a, c)] | _ => [] end ++ frees_from (a + c) l) /\ v <= w /\ w + k <= v + c0).
  { intros Hw. destruct (IH (a + c) c w k H5 N2 Hk Hw ltac:(lia)) as (v & c0 & K1 & K2 & K3).
    - intros v c0 HI. apply HB. apply in_or_app. right. exact HI.
    - exists v, c0. split; [apply in_or_app; right; exact K1|auto]. }
  destruct kd as [| |p n d].
  - destruct (Z_le_dec (w + k) (a + c)) as [L|L]; [exists a, c; split; [left; reflexivity|lia]|].
    destruct (Z_le_dec (a + c) w) as [L2|L2]; [apply TAIL; exact L2|]. exfalso.
    destruct l as [|[c' k'] l]; [cbn in He; lia|]. specialize (N1 eq_refl). cbn [firstfr] in N1.
    cbn [cks] in H5. destruct H5 as (J1 & _).
    specialize (HB (a + c) c'). destruct k'; cbn in N1; try discriminate; (destruct HB as [HB|HB]; [left; reflexivity|lia|lia]).
  - destruct (HB a c ltac:(left; reflexivity)); [lia|apply TAIL; assumption].
  - destruct (HB a c ltac:(left; reflexivity)); [lia|apply TAIL; assumption].
Qed.

Lemma fails_only_full g s o d n gr fuel s' : reach g s o -> valid g s o (OAlloc d n gr) -> csrc g = false -> 0 < n ->
  step fuel g (OAlloc d n gr) s = Ok (0, s') ->
  (forall x z w c, In (x, z) (segs o) -> In (w, c) (free_in (smem s) (x, z)) -> c <= 2097152 -> c < room d n) /\
  (cmerge g = true -> forall x z w k, In (x, z) (segs o) -> z <= 2097152 -> x + 32 <= w -> w + k <= x + z - 16 ->
     (forall b, In b (blocks o) -> apart (w, k) (occ (smem s) (bp b))) -> k < room d n).
Proof.
  intros R V Hc Hn E. destruct (alloc_info _ _ _ _ _ _ _ _ _ R V E) as (H0 & _).
  destruct (H0 eq_refl) as (_ & [K|[(K & _)|(_ & NF)]]); [lia|congruence|]. unfold no_fit in NF. split.
  - intros x z w c H1 H2. apply (NF w). unfold all_free. apply in_flat_map. exists (x, z). auto.
  - intros Hm x z w k H1 Hz Hw He HB. destruct (Z_lt_dec k (room d n)) as [L|L]; [exact L|exfalso].
    destruct (reach_good _ _ _ R) as (A & F & G). assert (W := good_world _ _ _ _ _ G). assert (C := gd_core _ _ _ _ _ G).
    assert (CG := conserved_gen _ _ _ _ _ G (x, z) H1).
    destruct (good_seg _ _ _ _ _ _ _ G H1) as (sg & HS & -> & ->).
    destruct (w_segok _ _ _ _ W _ HS) as (_ & _ & K3 & _ & _ & K6 & _).
    destruct (gap_free _ _ _ _ w k K6 (co_merge _ _ _ _ _ C Hm _ HS)) as (v & c & J1 & J2 & J3); [unfold room in L; lia|exact Hw|lia| |].
    + intros v c HI. fold (segr sg) in CG. rewrite (occ_in_seg _ _ _ _ W HS) in CG. destruct CG as (lk & P & LK & _).
      apply Permutation_in with (1 := P) in HI. apply in_app_or in HI. destruct HI as [HI|HI].
      * apply in_map_iff in HI as (b & E1 & HI). apply filter_In in HI as (HI & _). specialize (HB b HI). rewrite E1 in HB.
        unfold apart in HB. cbn [fst snd] in HB. exact HB.
      * destruct (LK _ _ HI). congruence.
    + assert (HF : In (v, c) (frees A)) by (unfold frees; apply in_flat_map; exists sg; auto).
      specialize (NF v c). rewrite (all_free_eq _ _ _ _ _ G) in NF.
      assert (R1 := cells_range _ _ _ _ _ _ K6 (frees_cells _ _ _ _ J1)). specialize (NF HF ltac:(lia)). lia.
Qed.

(** Enough room: success. *)
Lemma alloc_succeeds g s o d n gr fuel r s' : reach g s o -> valid g s o (OAlloc d n gr) -> step fuel g (OAlloc d n gr) s = Ok (r, s') ->
  0 < n -> ~ (csrc g = true /\ huge d n) ->
  (exists x z w c, In (x, z) (segs o) /\ In (w, c) (free_in (smem s) (x, z)) /\ room d n <= c <= 2097152) -> r <> 0 /\ sevs s' = [].
Proof.
  intros R V E Hn NH (x & z & w & c & H1 & H2 & H3).
  assert (HI : In (w, c) (all_free (smem s) o)) by (apply in_flat_map; exists (x, z); auto).
  assert (NN : ~ no_fit (smem s) o d n) by (intros NF; specialize (NF w c HI); lia).
  destruct (alloc_info _ _ _ _ _ _ _ _ _ R V E) as (H0 & H4). destruct (Z.eq_dec r 0) as [Er|Er].
  - exfalso. destruct (H0 Er) as (_ & [K|[(K & _ & [K2|K2])|(_ & NF)]]); [lia|tauto|tauto|tauto].
  - split; [exact Er|]. destruct (H4 Er) as (_ & [(K & _)|(b & K1 & K2 & K3 & K4)]); [exact K|]. tauto.
Qed.

(** ** C06 *)
Lemma empty_segment g s o : reach g s o -> csrc g = false -> cmerge g = true -> forall x z, In (x, z) (segs o) ->
  filter (inside (x, z)) (blocks o) = [] -> chunks (smem s) (x, z) = [(x + 32, z - 48, true)].
Proof.
  intros R Hc Hm x z HI HB. assert (BG := seg_big _ _ _ R _ _ HI). destruct (reach_good _ _ _ R) as (A & F & G).
  assert (W := good_world _ _ _ _ _ G). assert (C := gd_core _ _ _ _ _ G).
  destruct (good_seg _ _ _ _ _ _ _ G HI) as (sg & HS & -> & ->). fold (segr sg) in *. rewrite (chunks_desc _ _ _ _ W HS).
  destruct (w_segok _ _ _ _ W _ HS) as (_ & _ & K3 & _ & _ & K6 & _).
  assert (BS := blocks_seg _ _ _ _ _ _ G HS). rewrite HB in BS. apply Permutation_sym, Permutation_nil in BS. apply map_eq_nil in BS.
  assert (AF : allfr (gchunks sg)).
  { apply Forall_forall. intros (c & k) H. destruct k as [| |p n d]; [reflexivity| |].
    - destruct (co_lk _ _ _ _ _ C _ _ HS H). congruence.
    - exfalso. apply in_split in H as (l1 & l2 & E). rewrite E, used_from_app in BS. cbn in BS.
      apply app_eq_nil in BS as (_ & BS). discriminate. }
  destruct (allfr_noadj _ AF (co_merge _ _ _ _ _ C Hm _ HS)) as [E|(c & E)]; rewrite E in *; cbn [tot desc] in *; [lia|].
  cbn [isfr snd]. do 3 f_equal. lia.
Qed.

Lemma empty_restores g s o : reach g s o -> csrc g = false -> cmerge g = true -> blocks o = [] ->
  (forall x z, In (x, z) (segs o) -> chunks (smem s) (x, z) = [(x + 32, z - 48, true)]) /\
  (forall d n gr fuel r s', valid g s o (OAlloc d n gr) -> 0 < n -> step fuel g (OAlloc d n gr) s = Ok (r, s') ->
     (exists x z, In (x, z) (segs o) /\ room d n <= z - 48 <= 2097152) -> r <> 0).
Proof.
  intros R Hc Hm HB. assert (K : forall x z, In (x, z) (segs o) -> chunks (smem s) (x, z) = [(x + 32, z - 48, true)]).
  { intros x z HI. apply (empty_segment g s o R Hc Hm x z HI). rewrite HB. reflexivity. }
  split; [exact K|]. intros d n gr fuel r s' V Hn E (x & z & H1 & H2).
  apply (alloc_succeeds _ _ _ _ _ _ _ _ _ R V E Hn); [rewrite Hc; intros (? & _); discriminate|].
  exists x, z, (x + 32), (z - 48). split; [exact H1|]. split; [|exact H2]. unfold free_in. rewrite (K _ _ H1). left. reflexivity.
Qed.

(** Whatever succeeded in some state of a chain with these segments succeeds once everything is freed. *)
Lemma empty_is_best g s o s1 o1 d n gr gr1 fuel fuel1 r r1 s' s1' :
  reach g s o -> reach g s1 o1 -> csrc g = false -> cmerge g = true -> blocks o = [] ->
  segs o1 = segs o -> (forall x z, In (x, z) (segs o) -> z <= 2097152 + 48) ->
  valid g s o (OAlloc d n gr) -> valid g s1 o1 (OAlloc d n gr1) ->
  step fuel1 g (OAlloc d n gr1) s1 = Ok (r1, s1') -> r1 <> 0 ->
  step fuel g (OAlloc d n gr) s = Ok (r, s') -> r <> 0.
Proof.
  intros R R1 Hc Hm HB ES HZ V V1 E1 Hr1 E. destruct (empty_restores _ _ _ R Hc Hm HB) as (_ & K).
  destruct (alloc_info _ _ _ _ _ _ _ _ _ R1 V1 E1) as (_ & H1). destruct (H1 Hr1) as (Hn & [(_ & w & c & J1 & J2)|(b & J & _)]); [|congruence].
  apply (K d n gr fuel r s' V ltac:(lia) E). destruct (reach_good _ _ _ R1) as (A & F & G).
  rewrite (all_free_eq _ _ _ _ _ G) in J1. destruct (frees_16 _ _ _ _ _ _ (good_world _ _ _ _ _ G) J1) as (_ & _ & sg & Q1 & Q2 & Q3).
  exists (gbase sg), (gsize sg). assert (QI : In (gbase sg, gsize sg) (segs o)) by (rewrite <- ES, (gd_segs _ _ _ _ _ G); exact (in_map segr _ _ Q1)).
  split; [exact QI|]. specialize (HZ _ _ QI). lia.
Qed.

(** ** C14 *)
Lemma too_big g s o d n gr fuel r s' : reach g s o -> valid g s o (OAlloc d n gr) -> csrc g = false \/ gr = None ->
  (forall x z, In (x, z) (segs o) -> z - 48 < room d n) -> step fuel g (OAlloc d n gr) s = Ok (r, s') ->
  r = 0 /\ s' = clear_ev s.
Proof.
  intros R V Hc HB E. destruct (alloc_info _ _ _ _ _ _ _ _ _ R V E) as (H0 & H1). destruct (Z.eq_dec r 0) as [Er|Er].
  - split; [exact Er|]. apply (H0 Er).
  - exfalso. destruct (H1 Er) as (_ & [(_ & w & c & J1 & J2)|(b & J1 & J2 & _)]); [|destruct Hc; congruence].
    destruct (reach_good _ _ _ R) as (A & F & G).
    rewrite (all_free_eq _ _ _ _ _ G) in J1. destruct (frees_16 _ _ _ _ _ _ (good_world _ _ _ _ _ G) J1) as (_ & _ & sg & Q1 & Q2 & Q3).
    specialize (HB (gbase sg) (gsize sg)). rewrite (gd_segs _ _ _ _ _ G) in HB. specialize (HB (in_map segr _ _ Q1)). lia.
Qed.

(** ** C18 *)
Lemma refill_adds g s o b z fuel r s' : reach g s o -> valid g s o (ORefill b z) -> b <> 0 -> step fuel g (ORefill b z) s = Ok (r, s') ->
  let o' := next o (ORefill b z) r (sevs s') in
  segs o' = (b, z) :: segs o /\ live o' = live o /\ pend o' = pend o /\
  chunks (smem s') (b, z) = [(b + 32, z - 48, true)] /\
  (forall x y, In (x, y) (segs o) -> chunks (smem s') (x, y) = chunks (smem s) (x, y)).
Proof.
  intros R V Hb E. cbv zeta. destruct (reach_good _ _ _ R) as (A & F & G). assert (C := gd_core _ _ _ _ _ G).
  pattern r, s'. eapply (step_any fuel g s o (ORefill b z) r s'); [|exact E]. cbv beta. intros f Hf.
  eapply wp_mono; [apply (step_refill f g s o A F G b z V)|]. intros r1 s1 (A' & F' & G' & E0 & EA & CH).
  rewrite E0 in *. cbn [next live pend segs fold_right] in *. destruct (Z.eqb_spec b 0); [contradiction|].
  assert (EA' : A' = mkSeg b z [(z - 48, Fr)] :: A).
  { destruct EA as [->|(_ & ->)]; [|reflexivity]. assert (K := gd_segs _ _ _ _ _ G'). cbn [segs] in K. rewrite <- (gd_segs _ _ _ _ _ G) in K.
    exfalso. apply (f_equal (@length _)) in K. cbn in K. lia. }
  clear EA. subst A'.
  split; [reflexivity|]. split; [reflexivity|]. split; [reflexivity|]. assert (W' := good_world _ _ _ _ _ G'). split.
  - assert (K := chunks_desc _ _ _ _ W' (or_introl eq_refl)). exact K.
  - intros x y HI. destruct (good_seg _ _ _ _ _ _ _ G HI) as (sg & HS & -> & ->). fold (segr sg).
    rewrite (chunks_desc _ _ _ _ W' (or_intror HS)). symmetry. apply (chunks_desc g s A); [eapply good_world; exact G|exact HS].
Qed.
