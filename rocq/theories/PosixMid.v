(** The chains, the source and the registry together, between the phases of a chain call. *)
From Verif Require Import Word Res Mem SizeClassModel ChainModel ChainInv ChainSpec ChainEv ChainProps ChainCap ChainSrc ChainPut ChainMore ChainCore
  RegionModel RegionSpec RegionProofs LightModel LightSpec LightProofs PosixModel PosixSpec PosixChain PosixInv PosixSrc.
From Coq Require Import ZArith List Bool Lia Permutation.
Import ListNotations.
Open Scope Z_scope.

Notation apart := ChainSpec.apart.
Notation seg := RegionSpec.seg.
Definition page (e : env) (x : Z * Z) : Prop :=
  4194304 <= fst x /\ fst x mod 4096 = 0 /\ snd x mod 2097152 = 0 /\ apart x (eegg e, CHAIN_SIZE) /\ apart x (ebuf e, EGG_MEM).

(** [G]: segments got from the source and not yet in a chain; [P]: segments that the chain at [c] has left and not yet given back. *)
Record Mid (e : env) (y : sys) (O : list obs) (c : Z) (G P : list (Z * Z)) (out C : list (Z * Z)) (L : list seg) : Prop := {
  m_env : wf_env e;
  m_cor : Cor e y O;
  m_light : LInv (source y) out C;
  m_page : forall x, In x (lmap (ysrc y)) -> page e x;
  m_out : forall x, In x out <-> (exists j k, j <> 0%nat /\ chain y j = Some k /\ In x (segs (oat O j))) \/ In x P \/ In x G;
  m_reg : exists h, RInv (mkR (yregs y) h) L;
  m_L : forall x, In x L <-> (exists j k, chain y j = Some k /\ In (sb x, ss x) (segs (oat O j)) /\ sc x = cpool (kg k)) \/ (In (sb x, ss x) P /\ sc x = c);
  m_P : forall b z, In (b, z) P -> ld (ymem y) (b + 16) 8 = c;
  m_new : forall x, In x P \/ In x G -> forall j k, j <> 0%nat -> chain y j = Some k -> ~ In x (segs (oat O j));
  m_nd : NoDup P;
  m_cap : 0 <= keep_max (elg e) -> lsz (ysrc y) <= Z.max 0 (keep_mem (elg e) + keep_max (elg e)) }.

Lemma kg_cases e y O i k : Cor e y O -> chain y i = Some k -> creg (kg k) = true /\ cmerge (kg k) = true /\ (i <> 0%nat -> csrc (kg k) = true) /\ (i = 0%nat -> kg k = egg_cfg e).
Proof.
  intros I H. destruct (Nat.eq_dec i 0) as [->|N].
  - destruct (c_egg _ _ _ I) as (k0 & K1 & K2 & _). rewrite H in K1. injection K1 as <-. rewrite K2. repeat split; congruence.
  - destruct (c_cfg _ _ _ I i k H N) as (K & _). rewrite K. cbn. repeat split; congruence.
Qed.

Section Facts.
  Variables (e : env) (y : sys) (O : list obs) (c : Z) (G P out C : list (Z * Z)) (L : list seg).
  Hypothesis I : Mid e y O c G P out C L.

  Lemma mid_page x : In x out -> In x (lmap (ysrc y)) /\ page e x /\ okblk x.
  Proof. intros H. pose proof (li_in_out _ _ _ _ (m_light _ _ _ _ _ _ _ _ _ I) H) as K. split; [exact K|]. split; [apply (m_page _ _ _ _ _ _ _ _ _ I x K)|apply (li_ok _ _ _ (m_light _ _ _ _ _ _ _ _ _ I) x K)]. Qed.
  Lemma mid_seg j k x : j <> 0%nat -> chain y j = Some k -> In x (segs (oat O j)) -> In x out.
  Proof. intros H1 H2 H3. apply (m_out _ _ _ _ _ _ _ _ _ I). left. exists j, k. auto. Qed.
  Lemma mid_same x x' : In x out -> In x' out -> fst x = fst x' -> x = x'.
  Proof. intros H1 H2 H3. apply (same_base _ _ _ _ _ (m_light _ _ _ _ _ _ _ _ _ I)); [exact (proj1 (mid_page _ H1))|exact (proj1 (mid_page _ H2))|exact H3]. Qed.
  Lemma mid_apart x x' : In x out -> In x' out -> x <> x' -> apart x x'.
  Proof.
    intros H1 H2 H3. destruct (li_disj _ _ _ (m_light _ _ _ _ _ _ _ _ _ I) x x') as [K|K]; [exact (proj1 (mid_page _ H1))|exact (proj1 (mid_page _ H2))|contradiction|exact K].
  Qed.
  (** The egg is outside of the source. *)
  Lemma egg_outside x : (eegg e <= x < eegg e + CHAIN_SIZE) \/ (ebuf e <= x < ebuf e + EGG_MEM) -> ~ within (lmap (ysrc y)) x.
  Proof. intros H (b & z & K1 & K2). destruct (m_page _ _ _ _ _ _ _ _ _ I _ K1) as (_ & _ & _ & A1 & A2). unfold apart in A1, A2. cbn [fst snd] in A1, A2. lia. Qed.
  Lemma own_bytes j k x : chain y j = Some k -> private (kg k) (set_mem (kst k) (ymem y)) (oat O j) x ->
    (eegg e <= x < eegg e + CHAIN_SIZE) \/ (ebuf e <= x < ebuf e + EGG_MEM) \/ exists r, j <> 0%nat /\ In r (segs (oat O j)) /\ fst r <= x < fst r + snd r.
  Proof.
    intros H ((b & z & Hbz & Hx) & _). pose proof (m_cor _ _ _ _ _ _ _ _ _ I) as Co. destruct (Nat.eq_dec j 0) as [->|N].
    - destruct (kg_cases _ _ _ _ _ Co H) as (_ & _ & _ & K). rewrite (K eq_refl) in Hbz. cbn [egg_cfg cpool] in Hbz. rewrite (c_eseg _ _ _ Co) in Hbz.
      destruct Hbz as [Hbz|[Hbz|[]]]; injection Hbz as <- <-; unfold POOL_SIZE, CHAIN_SIZE in *; lia.
    - destruct Hbz as [Hbz|Hbz].
      + injection Hbz as <- <-. pose proof (pool_in e y O Co j k H N). lia.
      + right. right. exists (b, z). auto.
  Qed.
  Lemma seg_hdr j k b z : chain y j = Some k -> In (b, z) (segs (oat O j)) -> ld (ymem y) b 7 = z /\ ld (ymem y) (b + 16) 8 = cpool (kg k).
  Proof.
    intros H1 H2. pose proof (m_cor _ _ _ _ _ _ _ _ _ I) as Co. destruct (seg_header _ _ _ _ _ (c_reach _ _ _ Co j k H1) H2) as (K1 & K2).
    cbn [smem set_mem] in *. destruct (kg_cases _ _ _ _ _ Co H1) as (K3 & _). auto.
  Qed.
  Lemma mapped j k b z : chain y j = Some k -> In (b, z) (segs (oat O j)) -> accb ((ebuf e, EGG_MEM) :: lmap (ysrc y)) b 24 = true.
  Proof.
    intros H1 H2. pose proof (m_cor _ _ _ _ _ _ _ _ _ I) as Co. unfold accb. apply existsb_exists. destruct (Nat.eq_dec j 0) as [->|N].
    - rewrite (c_eseg _ _ _ Co) in H2. destruct H2 as [H2|[]]. injection H2 as <- <-. exists (ebuf e, EGG_MEM). split; [left; reflexivity|]. unfold EGG_MEM. lia.
    - destruct (mid_page _ (mid_seg j k _ N H1 H2)) as (K1 & _ & K2). apply okblk_size in K2. cbn [snd] in K2. exists (b, z). split; [right; exact K1|lia].
  Qed.
  Lemma mid_view : RInv (rview e y) L.
  Proof.
    destruct (m_reg _ _ _ _ _ _ _ _ _ I) as (h & H). apply (rinv_hdr _ h); [exact H|]. intros x Hx. apply (m_L _ _ _ _ _ _ _ _ _ I) in Hx as [(j & k & K1 & K2 & K3)|(K1 & K2)].
    - rewrite (mapped j k _ _ K1 K2). destruct (seg_hdr j k _ _ K1 K2) as (-> & ->). congruence.
    - assert (Ho : In (sb x, ss x) out) by (apply (m_out _ _ _ _ _ _ _ _ _ I); auto). destruct (mid_page _ Ho) as (M1 & _ & M2). apply okblk_size in M2. cbn [snd] in M2.
      assert (A : accb ((ebuf e, EGG_MEM) :: lmap (ysrc y)) (sb x) 24 = true) by (unfold accb; apply existsb_exists; exists (sb x, ss x); split; [right; exact M1|lia]).
      rewrite A. pose proof (li_hdr _ _ _ (m_light _ _ _ _ _ _ _ _ _ I) _ _ Ho) as K3. cbn [source lset_mem lmem] in K3. rewrite K3, (m_P _ _ _ _ _ _ _ _ _ I _ _ K1), K2. reflexivity.
  Qed.
  (** Memory changes of the source. *)
  Lemma cor_source l : (forall x, ~ within (lmap (ysrc y)) x -> ~ within (lmap l) x -> lmem l x = ymem y x) ->
    (forall x, In x (lmap l) -> page e x) ->
    (forall j k r x, j <> 0%nat -> chain y j = Some k -> In r (segs (oat O j)) -> fst r <= x < fst r + snd r -> lmem l x = ymem y x) ->
    Cor e (yset_src y l) O.
  Proof.
    intros H1 H2 H3. apply (cor_eq e (yset_mem y (lmem l))); try reflexivity. apply cor_mem; [exact (m_cor _ _ _ _ _ _ _ _ _ I)|].
    assert (EO : forall x, (eegg e <= x < eegg e + CHAIN_SIZE) \/ (ebuf e <= x < ebuf e + EGG_MEM) -> ~ within (lmap l) x).
    { intros x H (b & z & K1 & K2). destruct (H2 _ K1) as (_ & _ & _ & A1 & A2). unfold apart in A1, A2. cbn [fst snd] in A1, A2. lia. }
    intros j k x Hk HP. destruct (own_bytes j k x Hk HP) as [K|[K|(r & K1 & K2 & K3)]].
    - apply H1; [apply egg_outside; auto|apply EO; auto].
    - apply H1; [apply egg_outside; auto|apply EO; auto].
    - exact (H3 j k r x K1 Hk K2 K3).
  Qed.
End Facts.

(** What a phase leaves alone. *)
Definition still (y y' : sys) : Prop := ych y' = ych y /\ ytls y' = ytls y /\ ylight y' = ylight y /\ ytr y' = ytr y.
(** Memory of the egg and of the segments of the chains. *)
Definition chains_mem (e : env) (y : sys) (O : list obs) (x : Z) : Prop :=
  (eegg e <= x < eegg e + CHAIN_SIZE) \/ (ebuf e <= x < ebuf e + EGG_MEM) \/
  exists j k b z, j <> 0%nat /\ chain y j = Some k /\ In (b, z) (segs (oat O j)) /\ b <= x < b + z.

Lemma mid_request e y O c out C L os z : Mid e y O c [] [] out C L -> os_ok e y os z -> 0 < z -> z mod 2097152 = 0 ->
  exists b l C', request (elg e) (loop_bound (source y)) z (Some (os (lmap (ysrc y)))) (source y) = Ok (b, l) /\
    Mid e (yset_src y l) O c [(b, z)] [] ((b, z) :: out) C' L /\ (lmap l = lmap (ysrc y) \/ b = os (lmap (ysrc y)) /\ lmap l = (b, z) :: lmap (ysrc y)) /\
    forall x, chains_mem e y O x -> lmem l x = ymem y x.
Proof.
  intros I OS Hz Hm. destruct (OS (lmap (ysrc y)) (fun r H => H)) as (O1 & O2 & O3 & O4). set (nb := os (lmap (ysrc y))) in *.
  assert (FR : LightSpec.fresh (source y) nb z).
  { split; [lia|]. split; [exact O3|]. intros r Hr. apply (O4 r). right. right. exact Hr. }
  pose proof (m_light _ _ _ _ _ _ _ _ _ I) as LI.
  destruct (req_ok (elg e) (source y) out C z (Some nb) LI Hz ltac:(lia) FR) as (b & l & C' & E & LI' & Hb & _ & CA & UN & TC). cbn [lightstep] in E.
  destruct (request_frame _ _ _ _ _ _ _ E) as (MP & FRM). cbn [source lset_mem lmap lmem] in *.
  assert (ML : lmap l = lmap (ysrc y) \/ b = nb /\ lmap l = (b, z) :: lmap (ysrc y)).
  { destruct CA as [(_ & K & _)|(K1 & K2 & _)]; [left; exact K|right]. injection K1 as <-. auto. }
  assert (PG : forall x, In x (lmap l) -> page e x).
  { intros x Hx. destruct ML as [K|(K0 & K)]; rewrite K in Hx; [apply (m_page _ _ _ _ _ _ _ _ _ I x Hx)|]. destruct Hx as [<-|Hx]; [|apply (m_page _ _ _ _ _ _ _ _ _ I x Hx)].
    subst b. unfold page. cbn [fst snd]. split; [exact O1|]. split; [exact O2|]. split; [exact Hm|]. split; apply O4; cbn; auto. }
  assert (UNS : forall j k r x, j <> 0%nat -> chain y j = Some k -> In r (segs (oat O j)) -> fst r <= x < fst r + snd r -> lmem l x = ymem y x).
  { intros j k r x K1 K2 K3 K4. apply (UN r (mid_seg _ _ _ _ _ _ _ _ _ I j k r K1 K2 K3) x K4). }
  exists b, l, C'. split; [exact E|]. split; [|split; [exact ML|]].
  - constructor.
    + exact (m_env _ _ _ _ _ _ _ _ _ I).
    + apply (cor_source _ _ _ _ _ _ _ _ _ I); [|exact PG|exact UNS]. intros x _ K. exact (FRM x K).
    + destruct l; exact LI'.
    + exact PG.
    + intros x. cbn [In]. rewrite (m_out _ _ _ _ _ _ _ _ _ I x). cbn [In]. change (chain (yset_src y l)) with (chain y). tauto.
    + exact (m_reg _ _ _ _ _ _ _ _ _ I).
    + exact (m_L _ _ _ _ _ _ _ _ _ I).
    + intros b' z' [].
    + intros x [[]|[<-|[]]] j k N Hk Hx. apply (mid_seg _ _ _ _ _ _ _ _ _ I j k _ N Hk) in Hx.
      pose proof (li_nd _ _ _ LI') as ND. apply NoDup_remove_2 in ND. apply ND. apply in_or_app. right. exact Hx.
    + constructor.
    + intros K. pose proof (m_cap _ _ _ _ _ _ _ _ _ I K) as B. pose proof (li_sz _ _ _ LI) as Z1. pose proof (li_sz _ _ _ LI') as Z2.
      cbn [yset_src ysrc source lset_mem lsz] in *. lia.
  - intros x [K|[K|(j & k & b0 & z0 & K1 & K2 & K3 & K4)]].
    + apply FRM. intros (b0 & z0 & K1 & K2). destruct (PG _ K1) as (_ & _ & _ & A1 & A2). unfold apart in A1, A2. cbn [fst snd] in A1, A2. lia.
    + apply FRM. intros (b0 & z0 & K1 & K2). destruct (PG _ K1) as (_ & _ & _ & A1 & A2). unfold apart in A1, A2. cbn [fst snd] in A1, A2. lia.
    + exact (UNS j k (b0, z0) x K1 K2 K3 K4).
Qed.

(** Segments go back. *)
Lemma mid_put e y O c b z P out C L : Mid e y O c [] ((b, z) :: P) out C L ->
  exists y' out' C' L', events e c [EPut b] y = Ok y' /\ Mid e y' O c [] P out' C' L' /\ still y y' /\ incl (lmap (ysrc y')) (lmap (ysrc y)) /\
    forall x, chains_mem e y O x -> ymem y' x = ymem y x.
Proof.
  intros I. pose proof (m_light _ _ _ _ _ _ _ _ _ I) as LI. pose proof (mid_view _ _ _ _ _ _ _ _ _ I) as RV.
  assert (Hob : In (b, z) out) by (apply (m_out _ _ _ _ _ _ _ _ _ I); right; left; left; reflexivity).
  destruct (unset_ok (rview e y) L b RV) as (r & rs & E1 & R1).
  { exists (mkSeg b z c). split; [apply (m_L _ _ _ _ _ _ _ _ _ I); right; cbn; auto|reflexivity]. }
  destruct (free_ok (elg e) (source y) out C b z LI Hob) as (l & C' & E2 & L2 & CA & UN). cbn [lightstep] in E2.
  destruct (free_memory (elg e) b (source y)) as [l'| | |] eqn:E3; try discriminate. cbn [rbind] in E2. injection E2 as <-.
  destruct (free_frame _ _ _ _ E3) as (INC & FRM). cbn [source lset_mem lmap lmem] in INC, FRM, UN.
  set (out' := filter (fun x => negb (fst x =? b)) out) in *.
  assert (HO' : forall x, In x out' <-> In x out /\ x <> (b, z)).
  { intros x. unfold out'. rewrite filter_In. split; intros (K1 & K2); (split; [exact K1|]).
    - intros ->. cbn [fst] in K2. lia.
    - assert (fst x <> b); [|lia]. intros K. apply K2. apply (mid_same _ _ _ _ _ _ _ _ _ I); [exact K1|exact Hob|exact K]. }
  assert (NS : forall j k x, j <> 0%nat -> chain y j = Some k -> In x (segs (oat O j)) -> In x out').
  { intros j k x N Hk Hx. apply HO'. split; [apply (mid_seg _ _ _ _ _ _ _ _ _ I j k x N Hk Hx)|]. intros ->.
    apply (m_new _ _ _ _ _ _ _ _ _ I (b, z) (or_introl (or_introl eq_refl)) j k N Hk Hx). }
  pose proof (m_nd _ _ _ _ _ _ _ _ _ I) as ND. apply NoDup_cons_iff in ND as (ND1 & ND2).
  assert (NP : forall x, In x P -> In x out').
  { intros x Hx. apply HO'. split; [apply (m_out _ _ _ _ _ _ _ _ _ I); right; left; right; exact Hx|]. intros ->. exact (ND1 Hx). }
  assert (PG : forall x, In x (lmap l') -> page e x) by (intros x Hx; apply (m_page _ _ _ _ _ _ _ _ _ I x (INC x Hx))).
  assert (UNS : forall j k r0 x, j <> 0%nat -> chain y j = Some k -> In r0 (segs (oat O j)) -> fst r0 <= x < fst r0 + snd r0 -> lmem l' x = ymem y x).
  { intros j k r0 x K1 K2 K3 K4. exact (UN r0 (NS j k r0 K1 K2 K3) x K4). }
  exists (yset_src (yset_regs y (regs rs)) l'), out', C', (filter (fun x => negb (sb x =? b)) L).
  split; [cbn [events]; rewrite E1; cbn [rbind]; rewrite E3; reflexivity|]. split; [|split; [repeat split|split; [exact INC|]]].
  - constructor.
    + exact (m_env _ _ _ _ _ _ _ _ _ I).
    + apply (cor_eq e (yset_src y l')); try reflexivity. apply (cor_source _ _ _ _ _ _ _ _ _ I); [|exact PG|exact UNS]. intros x K _. exact (FRM x K).
    + destruct l'; exact L2.
    + exact PG.
    + intros x. rewrite HO', (m_out _ _ _ _ _ _ _ _ _ I x). cbn [In].
      change (chain (yset_src (yset_regs y (regs rs)) l')) with (chain y). split.
      * intros ([K|[[K|K]|[]]] & N); [left; exact K|congruence|right; left; exact K].
      * intros [(j & k & K1 & K2 & K3)|[K|[]]].
        -- split; [left; exists j, k; auto|]. apply HO'. exact (NS j k x K1 K2 K3).
        -- split; [right; left; right; exact K|]. apply HO'. exact (NP x K).
    + exists (hdr rs). destruct rs. exact R1.
    + intros x. rewrite filter_In, (m_L _ _ _ _ _ _ _ _ _ I x). cbn [In].
      change (chain (yset_src (yset_regs y (regs rs)) l')) with (chain y). split.
      * intros ([K|([K|K] & K')] & N); [left; exact K| |right; auto]. injection K as K _. lia.
      * intros [(j & k & K1 & K2 & K3)|(K & K')].
        -- split; [left; exists j, k; auto|]. assert (sb x <> b); [|lia]. intros EB. destruct (Nat.eq_dec j 0) as [->|N].
           ++ rewrite (c_eseg _ _ _ (m_cor _ _ _ _ _ _ _ _ _ I)) in K2. destruct K2 as [K2|[]]. injection K2 as K2 _.
              destruct (mid_page _ _ _ _ _ _ _ _ _ I _ Hob) as (_ & (_ & _ & _ & _ & A) & (_ & B & _)). unfold apart, EGG_MEM in A. cbn [fst snd] in A, B. lia.
           ++ pose proof (NS j k _ N K1 K2) as K4. apply HO' in K4 as (K4 & K5). apply K5. apply (mid_same _ _ _ _ _ _ _ _ _ I); [exact K4|exact Hob|exact EB].
        -- split; [right; auto|]. assert (sb x <> b); [|lia]. intros EB. pose proof (NP _ K) as K4. apply HO' in K4 as (K4 & K5). apply K5.
           apply (mid_same _ _ _ _ _ _ _ _ _ I); [exact K4|exact Hob|exact EB].
    + intros b' z' Hb'. cbn [yset_src ymem]. rewrite <- (m_P _ _ _ _ _ _ _ _ _ I b' z' (or_intror Hb')). apply ld_ext. intros x Hx.
      pose proof (NP _ Hb') as K. apply (UN _ K x). apply HO' in K as (K & _). destruct (mid_page _ _ _ _ _ _ _ _ _ I _ K) as (_ & _ & B). apply okblk_size in B. cbn [fst snd] in *. lia.
    + intros x [Hx|[]]. apply (m_new _ _ _ _ _ _ _ _ _ I). left. right. exact Hx.
    + exact ND2.
    + intros K. pose proof (m_cap _ _ _ _ _ _ _ _ _ I K) as B. pose proof (li_sz _ _ _ LI) as Z1. pose proof (li_sz _ _ _ L2) as Z2.
      cbn [yset_src yset_regs ysrc source lset_mem lsz] in *. destruct CA as [(K1 & K2 & _ & ->)|(_ & _ & ->)]; [|lia].
      cbn [LightSpec.total map fold_right snd] in Z2. unfold LightSpec.total in *. cbn [map fold_right snd] in Z2. lia.
  - intros x [K|[K|(j & k & b0 & z0 & K1 & K2 & K3 & K4)]].
    + apply FRM. apply (egg_outside _ _ _ _ _ _ _ _ _ I). auto.
    + apply FRM. apply (egg_outside _ _ _ _ _ _ _ _ _ I). auto.
    + exact (UNS j k (b0, z0) x K1 K2 K3 K4).
Qed.
Lemma events_app e c : forall l1 l2 y, events e c (l1 ++ l2) y = rbind (events e c l1 y) (events e c l2).
Proof.
  induction l1 as [|[b z|b] l1 IH]; intros l2 y; cbn [app events]; [reflexivity| |].
  - destruct (rstep (RSet c b z) (rview e y)) as [[r s]| | |]; cbn [rbind]; try reflexivity. apply IH.
  - destruct (rstep (RUnset b) (rview e y)) as [[r s]| | |]; cbn [rbind]; try reflexivity.
    destruct (free_memory (elg e) b (source y)) as [l| | |]; cbn [rbind]; try reflexivity. apply IH.
Qed.
Lemma still_chains e y y' O x : still y y' -> chains_mem e y O x -> chains_mem e y' O x.
Proof. intros (H & _) [K|[K|K]]; [left; exact K|right; left; exact K|right; right]. unfold chain in *. rewrite H. exact K. Qed.
Lemma mid_puts e O c : forall P y out C L, Mid e y O c [] P out C L ->
  exists y' out' C' L', events e c (map EPut (map fst P)) y = Ok y' /\ Mid e y' O c [] [] out' C' L' /\ still y y' /\ incl (lmap (ysrc y')) (lmap (ysrc y)) /\
    forall x, chains_mem e y O x -> ymem y' x = ymem y x.
Proof.
  induction P as [|[b z] P IH]; intros y out C L I.
  - exists y, out, C, L. cbn. split; [reflexivity|]. split; [exact I|]. split; [repeat split|]. split; [intros r H; exact H|auto].
  - destruct (mid_put _ _ _ _ _ _ _ _ _ _ I) as (y1 & o1 & C1 & L1 & E1 & I1 & S1 & N1 & F1).
    destruct (IH y1 o1 C1 L1 I1) as (y2 & o2 & C2 & L2 & E2 & I2 & S2 & N2 & F2).
    exists y2, o2, C2, L2. split.
    { cbn [map fst]. change (EPut b :: map EPut (map fst P)) with ([EPut b] ++ map EPut (map fst P)). rewrite events_app, E1. exact E2. }
    split; [exact I2|]. destruct S1 as (A1 & A2 & A3 & A4), S2 as (B1 & B2 & B3 & B4). split; [repeat split; congruence|]. split; [intros r H; apply N1, N2, H|].
    intros x Hx. rewrite F2; [apply F1; exact Hx|]. apply (still_chains e y y1); [repeat split; assumption|exact Hx].
Qed.
