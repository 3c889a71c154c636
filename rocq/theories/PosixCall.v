(** One chain call with its exchanges with the source and the registry. *)
From Verif Require Import Word Res Mem SizeClassModel ChainModel ChainInv ChainSpec ChainEv ChainProps ChainCap ChainSrc ChainPut ChainMore ChainCore
  RegionModel RegionSpec RegionProofs LightModel LightSpec LightProofs PosixModel PosixSpec PosixChain PosixInv PosixSrc PosixLocal PosixMid.
From Coq Require Import ZArith List Bool Lia Permutation.
Import ListNotations.
Open Scope Z_scope.

Lemma mid_c e y O c c' G out C L : Mid e y O c G [] out C L -> Mid e y O c' G [] out C L.
Proof.
  intros []. constructor; try assumption.
  - intros x. rewrite m_L. cbn [In]. tauto.
  - intros b z [].
Qed.

Lemma pick (l : list (Z * Z)) : forall bs, NoDup bs -> (forall b, In b bs -> exists z, In (b, z) l) -> exists P, map fst P = bs /\ incl P l /\ NoDup P.
Proof.
  induction bs as [|b bs IH]; intros ND H; [exists []; repeat split; [intros x []|constructor]|]. apply NoDup_cons_iff in ND as (N1 & N2).
  destruct (IH N2) as (P & E & I & N); [intros b' H'; apply H; right; exact H'|]. destruct (H b (or_introl eq_refl)) as (z & Hz).
  exists ((b, z) :: P). split; [cbn; congruence|]. split; [intros x [<-|K]; [exact Hz|apply I; exact K]|]. constructor; [|exact N].
  intros K. apply N1. rewrite <- E. apply in_map_iff. exists (b, z). auto.
Qed.

Lemma in_seg_dec (x : Z * Z) l : {In x l} + {~ In x l}.
Proof. apply range_dec. Qed.

Section Step.
  Variables (e : env) (y : sys) (O : list obs) (i : nat) (k : chn) (c : op) (fuel : nat) (r : Z) (s' : st) (G out C : list (Z * Z)) (L : list seg).
  Let g := kg k.
  Let s := set_mem (kst k) (ymem y).
  Let o := oat O i.
  Let o' := next o c r (sevs s').
  Let O' := set_nth i o' O.
  Let y1 := after_step y i k s'.
  Hypothesis I : Mid e y O (cpool g) G [] out C L.
  Hypothesis Hk : chain y i = Some k.
  Hypothesis V : valid g s o c.
  Hypothesis NR : not_refill c.
  Hypothesis NW : forall x, ~ written c x.
  Hypothesis E : step fuel g c s = Ok (r, s').
  Hypothesis HG : forall b z, In (EGet b z) (sevs s') <-> In (b, z) G.
  Hypothesis HR : i = 0%nat -> forall q, target c q -> ~ reserved y q.

  Let Co := m_cor _ _ _ _ _ _ _ _ _ I.
  Let W := m_env _ _ _ _ _ _ _ _ _ I.
  Lemma st_reach : reach g s o. Proof. exact (c_reach _ _ _ Co i k Hk). Qed.

  (** The new segments are apart from everything. *)
  Lemma st_new b z : In (EGet b z) (sevs s') -> apart (b, z) (eegg e, POOL_SIZE) /\ apart (b, z) (ebuf e, EGG_MEM) /\
     forall j kj x, j <> 0%nat -> j <> i -> chain y j = Some kj -> In x (segs (oat O j)) -> apart (b, z) x.
  Proof.
    intros H. apply HG in H. assert (Ho : In (b, z) out) by (apply (m_out _ _ _ _ _ _ _ _ _ I); auto).
    destruct (mid_page _ _ _ _ _ _ _ _ _ I _ Ho) as (_ & (_ & _ & _ & A1 & A2) & _).
    split; [unfold apart, CHAIN_SIZE, POOL_SIZE in *; cbn [fst snd] in *; lia|]. split; [exact A2|].
    intros j kj x Nj _ Hj Hx. apply (mid_apart _ _ _ _ _ _ _ _ _ I); [exact Ho|exact (mid_seg _ _ _ _ _ _ _ _ _ I j kj x Nj Hj Hx)|].
    intros <-. exact (m_new _ _ _ _ _ _ _ _ _ I (b, z) (or_intror H) j kj Nj Hj Hx).
  Qed.
  Lemma st_cor : Cor e y1 O'.
  Proof. apply (cor_step e y O i k c fuel r s' W Co Hk V NR NW E st_new HR). Qed.

  (** The chain changes only its structure and its segments. *)
  Lemma st_out x : ~ (cpool g <= x < cpool g + POOL_SIZE) -> (forall b z, In (b, z) (segs o) -> ~ b <= x < b + z) ->
    (forall b z, In (b, z) G -> ~ b <= x < b + z) -> smem s' x = ymem y x.
  Proof.
    intros H1 H2 H3. rewrite (step_out _ _ _ _ _ _ _ st_reach V E x).
    - destruct c; try reflexivity. exfalso. apply (NW 0). exact Logic.I.
    - intros b z [[K|K]|[K|K]]; [injection K as <- <-; exact H1|exact (H2 b z K)|apply HG in K; exact (H3 b z K)|subst c; contradiction].
  Qed.

  Lemma st_alive j : (exists kj, chain y1 j = Some kj) <-> (exists kj, chain y j = Some kj).
  Proof.
    unfold y1, after_step. destruct (Nat.eq_dec j i) as [->|N].
    - rewrite (chain_put_same (yset_mem y (smem s')) i k) by exact Hk. split; intros _; eauto.
    - rewrite (chain_put_other (yset_mem y (smem s'))) by congruence. reflexivity.
  Qed.
  Lemma st_chain j kj : chain y1 j = Some kj -> exists k0, chain y j = Some k0 /\ kg kj = kg k0.
  Proof.
    unfold y1, after_step. destruct (Nat.eq_dec j i) as [->|N].
    - rewrite (chain_put_same (yset_mem y (smem s')) i k) by exact Hk. intros H. injection H as <-. exists k. auto.
    - rewrite (chain_put_other (yset_mem y (smem s'))) by congruence. intros H. exists kj. auto.
  Qed.
  Lemma st_chain' j k0 : chain y j = Some k0 -> exists kj, chain y1 j = Some kj /\ kg kj = kg k0.
  Proof.
    intros H. unfold y1, after_step. destruct (Nat.eq_dec j i) as [->|N].
    - rewrite (chain_put_same (yset_mem y (smem s')) i k) by exact Hk. rewrite Hk in H. injection H as <-. exists (done k s'). auto.
    - rewrite (chain_put_other (yset_mem y (smem s'))) by congruence. exists k0. auto.
  Qed.
  Lemma st_oat j : j <> i -> oat O' j = oat O j.
  Proof. intros H. apply oat_set_other. congruence. Qed.
  Lemma st_oati : oat O' i = o'.
  Proof. apply oat_set_same. rewrite (c_len _ _ _ Co). exact (chain_lt _ _ _ Hk). Qed.

  (** Headers of the segments of before, after the step. *)
  Lemma st_hdr j kj b z : chain y j = Some kj -> In (b, z) (segs (oat O j)) -> ld (smem s') b 7 = z /\ ld (smem s') (b + 16) 8 = cpool (kg kj).
  Proof.
    intros Hj Hb. destruct (kg_cases _ _ _ _ _ Co Hj) as (CR & _).
    assert (K : intact (kg kj) (smem s') b z); [|destruct K as (K1 & K2); auto].
    destruct (st_chain' j kj Hj) as (kj' & Hj' & EG). destruct (Nat.eq_dec j i) as [->|N].
    - rewrite Hk in Hj. injection Hj as <-. destruct (in_seg_dec (b, z) (segs o')) as [K|K].
      + rewrite <- EG. apply (seg_header _ _ _ _ _ (c_reach _ _ _ st_cor i kj' Hj')). rewrite st_oati. exact K.
      + exact (put_header _ _ _ _ _ _ _ st_reach V E b z Hb K).
    - rewrite <- EG. apply (seg_header _ _ _ _ _ (c_reach _ _ _ st_cor j kj' Hj')). rewrite st_oat by exact N. exact Hb.
  Qed.
  Lemma st_view : RInv (rview e y1) L.
  Proof.
    destruct (m_reg _ _ _ _ _ _ _ _ _ I) as (h & H). apply (rinv_hdr _ h); [exact H|]. intros x Hx. apply (m_L _ _ _ _ _ _ _ _ _ I) in Hx as [(j & kj & K1 & K2 & K3)|([] & _)].
    change (lmap (ysrc y1)) with (lmap (ysrc y)). rewrite (mapped _ _ _ _ _ _ _ _ _ I j kj _ _ K1 K2).
    change (ymem y1) with (smem s'). destruct (st_hdr j kj _ _ K1 K2) as (-> & ->). congruence.
  Qed.

  Lemma mid_step : exists y' out' C' L', events e (cpool g) (rev (sevs s')) y1 = Ok y' /\ Mid e y' O' (cpool g) [] [] out' C' L' /\
    still y1 y' /\ incl (lmap (ysrc y')) (lmap (ysrc y)) /\ (forall x, chains_mem e y1 O' x -> ymem y' x = smem s' x) /\ (sevs s' = [] -> y' = y1).
  Proof.
    destruct (step_evs _ _ _ _ _ _ _ st_reach V NR E) as (bs & a & Es & Ha & ND & HB & SEG). fold o' in SEG.
    assert (NB : NoDup (rev bs)) by (apply NoDup_rev; exact ND).
    destruct (pick (segs o) (rev bs) NB) as (P & EP & IP & NP); [intros b Hb; apply HB; apply in_rev; exact Hb|].
    assert (PB : forall x, In x P -> In (fst x) bs) by (intros x Hx; apply in_rev; rewrite <- EP; apply in_map; exact Hx).
    assert (ER : rev (sevs s') = rev a ++ map EPut (map fst P)) by (rewrite Es, rev_app_distr, EP, map_rev; reflexivity).
    assert (SRC : G <> [] \/ P <> [] -> i <> 0%nat).
    { intros H ->. destruct (kg_cases _ _ _ _ _ Co Hk) as (_ & _ & _ & K). assert (NS : csrc g = false) by (unfold g; rewrite (K eq_refl); reflexivity).
      unfold step in E. pose proof (exec_nosrc _ _ _ _ _ _ NS E) as EV. cbn [clear_ev sevs] in EV. destruct H as [H|H].
      - destruct G as [|[b z] G']; [congruence|]. assert (K2 : In (EGet b z) (sevs s')) by (apply HG; left; reflexivity). rewrite EV in K2. contradiction.
      - destruct P as [|x P']; [congruence|]. specialize (PB x (or_introl eq_refl)). assert (K2 : In (EPut (fst x)) (sevs s')) by (rewrite Es; apply in_or_app; left; apply in_map; exact PB).
        rewrite EV in K2. contradiction. }
    assert (Ga : forall x, In (EGet (fst x) (snd x)) a <-> In x G).
    { intros [b z]. cbn [fst snd]. rewrite <- HG, Es, in_app_iff. split; [auto|]. intros [K|K]; [|exact K]. apply in_map_iff in K as (b' & K & _). discriminate. }
    assert (SEG' : forall x, In x (segs o') <-> (In x (segs o) \/ In x G) /\ ~ In (fst x) bs) by (intros x; rewrite SEG, Ga; reflexivity).
    (* which segments are out *)
    assert (OUT : forall x, In x out <-> (exists j kj, j <> 0%nat /\ chain y1 j = Some kj /\ In x (segs (oat O' j))) \/ In x P).
    { intros x. rewrite (m_out _ _ _ _ _ _ _ _ _ I x). cbn [In]. split.
      - intros [(j & kj & K1 & K2 & K3)|[[]|K]].
        + destruct (Nat.eq_dec j i) as [->|N].
          * destruct (in_dec Z.eq_dec (fst x) bs) as [D|D].
            -- right. assert (Hx : In (fst x) (map fst P)) by (rewrite EP; apply in_rev; rewrite rev_involutive; exact D).
               apply in_map_iff in Hx as (x' & X1 & X2). assert (x' = x) as <-; [|exact X2]. apply (mid_same _ _ _ _ _ _ _ _ _ I); [| |exact X1].
               ++ apply (mid_seg _ _ _ _ _ _ _ _ _ I i k x' K1 Hk). apply IP. exact X2.
               ++ apply (mid_seg _ _ _ _ _ _ _ _ _ I i k x K1 Hk). exact K3.
            -- left. destruct (st_chain' i k Hk) as (k' & Hk' & _). exists i, k'. rewrite st_oati. split; [exact K1|]. split; [exact Hk'|]. apply SEG'. auto.
          * left. destruct (st_chain' j kj K2) as (k' & Hk' & _). exists j, k'. rewrite st_oat by exact N. auto.
        + left. assert (Ni : i <> 0%nat) by (apply SRC; left; intros EG; rewrite EG in K; exact K). destruct (st_chain' i k Hk) as (k' & Hk' & _).
          exists i, k'. rewrite st_oati. split; [exact Ni|]. split; [exact Hk'|]. apply SEG'. split; [right; exact K|]. intros D. destruct (HB _ D) as (z & Hz).
          assert (X : (fst x, z) = x). { apply (mid_same _ _ _ _ _ _ _ _ _ I); [exact (mid_seg _ _ _ _ _ _ _ _ _ I i k _ Ni Hk Hz)|apply (m_out _ _ _ _ _ _ _ _ _ I); auto|reflexivity]. }
          rewrite X in Hz. exact (m_new _ _ _ _ _ _ _ _ _ I x (or_intror K) i k Ni Hk Hz).
      - intros [(j & kj & K1 & K2 & K3)|K].
        + destruct (st_chain j kj K2) as (k0 & K4 & _). destruct (Nat.eq_dec j i) as [->|N].
          * rewrite st_oati in K3. apply SEG' in K3 as ([K3|K3] & _); [left; exists i, k; auto|auto].
          * rewrite st_oat in K3 by exact N. left. exists j, k0. auto.
        + left. exists i, k. split; [apply SRC; right; intros EQ; rewrite EQ in K; exact K|]. split; [exact Hk|]. apply IP. exact K. }
    assert (NEW : forall x, In x P -> forall j kj, j <> 0%nat -> chain y1 j = Some kj -> ~ In x (segs (oat O' j))).
    { intros x Hx j kj Nj Hj K. destruct (Nat.eq_dec j i) as [->|N].
      - rewrite st_oati in K. apply SEG' in K as (_ & K). exact (K (PB x Hx)).
      - rewrite st_oat in K by exact N. destruct (st_chain j kj Hj) as (k0 & K4 & _).
        assert (Ni : i <> 0%nat) by (apply SRC; right; intros EQ; rewrite EQ in Hx; exact Hx).
        pose proof (c_segs _ _ _ Co i j k k0 x x Ni Nj ltac:(congruence) Hk K4 (IP x Hx) K) as A.
        destruct (mid_page _ _ _ _ _ _ _ _ _ I x (mid_seg _ _ _ _ _ _ _ _ _ I i k x Ni Hk (IP x Hx))) as (_ & _ & B). apply okblk_size in B. unfold apart in A. lia. }
    (* the source *)
    assert (LI : LInv (source y1) out C).
    { apply (linv_mem (source y) out C (smem s') (m_light _ _ _ _ _ _ _ _ _ I)).
      - intros b n Hb x Hx. cbn [source lset_mem lmem]. pose proof (li_in_C _ _ _ _ (m_light _ _ _ _ _ _ _ _ _ I) Hb) as Hm. cbn [source lset_mem lmap] in Hm.
        destruct (m_page _ _ _ _ _ _ _ _ _ I _ Hm) as (_ & _ & _ & A1 & A2). pose proof (li_ok _ _ _ (m_light _ _ _ _ _ _ _ _ _ I) _ Hm) as B. apply okblk_size in B.
        unfold apart in A1, A2. cbn [fst snd] in *.
        assert (SEP : forall b' z', In (b', z') out -> ~ b' <= x < b' + z').
        { intros b' z' K. pose proof (linv_sep _ _ _ _ _ (m_light _ _ _ _ _ _ _ _ _ I) K Hb) as D. unfold disj in D. cbn [fst snd] in D. lia. }
        apply st_out.
        + destruct (Nat.eq_dec i 0) as [Ei|Ni].
          * destruct (kg_cases _ _ _ _ _ Co Hk) as (_ & _ & _ & K). unfold g. rewrite (K Ei). cbn [egg_cfg cpool]. unfold POOL_SIZE, CHAIN_SIZE in *. lia.
          * pose proof (pool_in e y O Co i k Hk Ni). fold g in H. lia.
        + intros b' z' K. destruct (Nat.eq_dec i 0) as [Ei|Ni].
          * unfold o in K. rewrite Ei, (c_eseg _ _ _ Co) in K. destruct K as [K|[]]. injection K as <- <-. lia.
          * apply SEP. exact (mid_seg _ _ _ _ _ _ _ _ _ I i k _ Ni Hk K).
        + intros b' z' K. apply SEP. apply (m_out _ _ _ _ _ _ _ _ _ I). auto.
      - intros b n Hb. apply OUT in Hb as [(j & kj & K1 & K2 & K3)|K].
        + destruct (seg_header _ _ _ _ _ (c_reach _ _ _ st_cor j kj K2) K3) as (K & _). exact K.
        + apply (st_hdr i k b n Hk (IP _ K)). }
    (* the registry before the new segment *)
    assert (LL : forall x, In x L <-> (exists j kj, chain y1 j = Some kj /\ In (sb x, ss x) (segs (oat O' j)) /\ sc x = cpool (kg kj) /\ ~ (j = i /\ In (sb x, ss x) G)) \/
                            (In (sb x, ss x) P /\ sc x = cpool g)).
    { intros x. rewrite (m_L _ _ _ _ _ _ _ _ _ I x). cbn [In]. split.
      - intros [(j & kj & K1 & K2 & K3)|([] & _)]. destruct (st_chain' j kj K1) as (k' & Hk' & EG). destruct (Nat.eq_dec j i) as [->|N].
        + rewrite Hk in K1. injection K1 as <-. destruct (in_seg_dec (sb x, ss x) (segs o')) as [D|D].
          * left. exists i, k'. rewrite st_oati, EG. split; [exact Hk'|]. split; [exact D|]. split; [exact K3|]. intros (_ & K4).
            assert (Ni : i <> 0%nat) by (apply SRC; left; intros EQ; rewrite EQ in K4; exact K4).
            exact (m_new _ _ _ _ _ _ _ _ _ I _ (or_intror K4) i k Ni Hk K2).
          * right. split; [|exact K3]. assert (DB : In (sb x) bs). { destruct (in_dec Z.eq_dec (sb x) bs) as [Y|Y]; [exact Y|]. exfalso. apply D. apply SEG'. cbn [fst]. auto. }
            assert (Ni : i <> 0%nat) by (apply SRC; right; intros EQ; rewrite EQ in EP; apply in_rev in DB; rewrite <- EP in DB; exact DB).
            assert (Hx : In (sb x) (map fst P)) by (rewrite EP; apply in_rev; rewrite rev_involutive; exact DB).
            apply in_map_iff in Hx as (x' & X1 & X2). assert (x' = (sb x, ss x)) as <-; [|exact X2]. apply (mid_same _ _ _ _ _ _ _ _ _ I); [| |exact X1].
            ++ apply (mid_seg _ _ _ _ _ _ _ _ _ I i k x' Ni Hk). apply IP. exact X2.
            ++ apply (mid_seg _ _ _ _ _ _ _ _ _ I i k _ Ni Hk). exact K2.
        + left. exists j, k'. rewrite st_oat, EG by exact N. split; [exact Hk'|]. split; [exact K2|]. split; [exact K3|]. intros (K4 & _). congruence.
      - intros [(j & kj & K1 & K2 & K3 & K4)|(K & K')].
        + destruct (st_chain j kj K1) as (k0 & K5 & EG). left. destruct (Nat.eq_dec j i) as [->|N].
          * rewrite st_oati in K2. apply SEG' in K2 as ([K2|K2] & _); [|tauto]. exists i, k0. rewrite <- EG. auto.
          * rewrite st_oat in K2 by exact N. exists j, k0. rewrite <- EG. auto.
        + left. exists i, k. split; [exact Hk|]. split; [apply IP; exact K|exact K']. }
    assert (MP : forall b z, In (b, z) P -> ld (smem s') (b + 16) 8 = cpool g) by (intros b z K; apply (st_hdr i k b z Hk (IP _ K))).
    assert (FIN : forall regs1 L1, (exists h, RInv (mkR regs1 h) L1) -> (forall x, In x L1 <-> In x L \/ (In (sb x, ss x) G /\ sc x = cpool g)) ->
       Mid e (yset_regs y1 regs1) O' (cpool g) [] P out C L1).
    { intros regs1 L1 H1 H2. constructor.
      - exact W.
      - apply (cor_eq e y1); try reflexivity. exact st_cor.
      - exact LI.
      - exact (m_page _ _ _ _ _ _ _ _ _ I).
      - intros x. rewrite OUT. cbn [In]. change (chain (yset_regs y1 regs1)) with (chain y1). tauto.
      - exact H1.
      - intros x. rewrite H2, LL. change (chain (yset_regs y1 regs1)) with (chain y1). split.
        + intros [[(j & kj & K1 & K2 & K3 & K4)|K]|(K1 & K2)]; [left; exists j, kj; auto|right; exact K|left].
          destruct (st_chain' i k Hk) as (k' & Hk' & EG). exists i, k'. rewrite EG. split; [exact Hk'|]. split; [|exact K2]. rewrite st_oati.
          assert (Ni : i <> 0%nat) by (apply SRC; left; intros EQ; rewrite EQ in K1; exact K1).
          apply SEG'. split; [right; exact K1|]. intros D. destruct (HB _ D) as (z & Hz). cbn [fst] in Hz.
          assert (X : (sb x, z) = (sb x, ss x)) by (apply (mid_same _ _ _ _ _ _ _ _ _ I); [exact (mid_seg _ _ _ _ _ _ _ _ _ I i k _ Ni Hk Hz)|apply (m_out _ _ _ _ _ _ _ _ _ I); auto|reflexivity]).
          rewrite X in Hz. exact (m_new _ _ _ _ _ _ _ _ _ I _ (or_intror K1) i k Ni Hk Hz).
        + intros [(j & kj & K1 & K2 & K3)|K]; [|left; right; exact K]. destruct (Nat.eq_dec j i) as [->|N].
          * destruct (in_seg_dec (sb x, ss x) G) as [D|D].
            -- right. split; [exact D|]. destruct (st_chain i kj K1) as (k0 & K4 & EG). rewrite Hk in K4. injection K4 as <-. unfold g. congruence.
            -- left. left. exists i, kj. split; [exact K1|]. split; [exact K2|]. split; [exact K3|]. tauto.
          * left. left. exists j, kj. split; [exact K1|]. split; [exact K2|]. split; [exact K3|]. tauto.
      - intros b z K. apply (MP b z K).
      - intros x [K|[]]. exact (NEW x K).
      - exact NP.
      - exact (m_cap _ _ _ _ _ _ _ _ _ I). }
    assert (GO : forall regs1 L1, Mid e (yset_regs y1 regs1) O' (cpool g) [] P out C L1 ->
      exists y' out' C' L', events e (cpool g) (map EPut (map fst P)) (yset_regs y1 regs1) = Ok y' /\ Mid e y' O' (cpool g) [] [] out' C' L' /\
        still y1 y' /\ incl (lmap (ysrc y')) (lmap (ysrc y)) /\ (forall x, chains_mem e y1 O' x -> ymem y' x = smem s' x)).
    { intros regs1 L1 M. destruct (mid_puts _ _ _ _ _ _ _ _ M) as (y' & o1 & C1 & L2 & E1 & M1 & S1 & N1 & F1). exists y', o1, C1, L2.
      split; [exact E1|]. split; [exact M1|]. split; [exact S1|]. split; [exact N1|]. intros x Hx. rewrite F1; [reflexivity|exact Hx]. }
    destruct Ha as [->|(b & z & ->)].
    - assert (EG : G = []) by (destruct G as [|x G']; [reflexivity|exfalso; apply (proj2 (Ga x)); left; reflexivity]).
      destruct (GO (yregs y1) L) as (y' & o1 & C1 & L2 & E1 & M1 & S1 & N1 & F1).
      { apply FIN; [exact (m_reg _ _ _ _ _ _ _ _ _ I)|]. intros x. rewrite EG. cbn [In]. tauto. }
      exists y', o1, C1, L2. rewrite ER. cbn [rev app]. replace (yset_regs y1 (yregs y1)) with y1 in E1 by (unfold yset_regs; destruct y1; reflexivity).
      repeat (split; [assumption|]). intros E0. rewrite E0 in Es. destruct bs; [|discriminate]. cbn in EP. destruct P; [|discriminate]. cbn in E1. congruence.
    - assert (Gb : In (b, z) G) by (apply Ga; left; reflexivity).
      assert (Hob : In (b, z) out) by (apply (m_out _ _ _ _ _ _ _ _ _ I); auto).
      destruct (mid_page _ _ _ _ _ _ _ _ _ I _ Hob) as (_ & (P1 & P2 & P3 & P4 & P5) & (B1 & B2 & B3 & B4)). cbn [fst snd] in *.
      assert (Ni : i <> 0%nat) by (apply SRC; left; intros EQ; rewrite EQ in Gb; exact Gb).
      destruct (set_ok (rview e y1) L (cpool g) b z st_view) as (r1 & rs & E1 & R1).
      { split; [unfold seg_ok; cbn [sb ss]; change (2 ^ 48) with 281474976710656; lia|]. split.
        - pose proof (pool_in e y O Co i k Hk Ni) as K. destruct W as (_ & _ & W3 & _). fold g in K. lia.
        - intros x Hx. apply (m_L _ _ _ _ _ _ _ _ _ I) in Hx as [(j & kj & K1 & K2 & K3)|([] & _)]. destruct (Nat.eq_dec j 0) as [->|Nj].
          + rewrite (c_eseg _ _ _ Co) in K2. destruct K2 as [K2|[]]. injection K2 as K2 K4. unfold RegionSpec.apart. cbn [sb ss]. unfold apart in P5. cbn [fst snd] in P5. lia.
          + assert (A : apart (b, z) (sb x, ss x)).
            { apply (mid_apart _ _ _ _ _ _ _ _ _ I); [exact Hob|exact (mid_seg _ _ _ _ _ _ _ _ _ I j kj _ Nj K1 K2)|]. intros EQ. rewrite <- EQ in K2.
              exact (m_new _ _ _ _ _ _ _ _ _ I (b, z) (or_intror Gb) j kj Nj K1 K2). }
            unfold apart in A. unfold RegionSpec.apart. cbn [fst snd sb ss] in *. exact A. }
      destruct (GO (regs rs) (mkSeg b z (cpool g) :: L)) as (y' & o1 & C1 & L2 & E2 & M1 & S1 & N1 & F1).
      { apply FIN; [exists (hdr rs); destruct rs; exact R1|]. intros x. cbn [In]. split.
        - intros [<-|K]; [right; cbn; auto|left; exact K].
        - intros [K|(K1 & K2)]; [right; exact K|left]. apply Ga in K1. destruct K1 as [K1|[]]. cbn [fst snd] in K1. destruct x as [xb xs xc]. cbn [sb ss sc] in *. congruence. }
      exists y', o1, C1, L2. split.
      { rewrite ER. cbn [rev app events]. rewrite E1. cbn [rbind]. exact E2. }
      repeat (split; [assumption|]). intros E0. rewrite E0 in Es. destruct bs; discriminate.
  Qed.
End Step.
