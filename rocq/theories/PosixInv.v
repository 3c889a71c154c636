(** Invariant of the chains of the whole allocator, and what one chain call does to it. *)
From Verif Require Import Word Res Mem SizeClassModel ChainModel ChainInv ChainSpec ChainEv ChainProps ChainCap ChainSrc ChainPut ChainMore
  RegionModel LightModel PosixModel PosixSpec PosixChain.
From Coq Require Import ZArith List Bool Lia.
Import ListNotations.
Open Scope Z_scope.

(** ** Lists *)
Lemma set_nth_len {A} i (x : A) : forall l, length (set_nth i x l) = length l.
Proof. induction i as [|i IH]; intros [|a l]; cbn; auto. Qed.
Lemma set_nth_same {A} (d : A) : forall i x l, (i < length l)%nat -> nth i (set_nth i x l) d = x.
Proof. induction i as [|i IH]; intros x [|a l] H; cbn in *; try lia; [reflexivity|]. apply IH. lia. Qed.
Lemma set_nth_other {A} (d : A) : forall i j x l, i <> j -> nth j (set_nth i x l) d = nth j l d.
Proof. induction i as [|i IH]; intros [|j] x [|a l] H; cbn; try reflexivity; try congruence. apply IH. congruence. Qed.
Lemma set_nth_comm {A} : forall i j (x y : A) l, i <> j -> set_nth i x (set_nth j y l) = set_nth j y (set_nth i x l).
Proof. induction i as [|i IH]; intros [|j] x y [|a l] H; cbn; try reflexivity; try congruence. f_equal. apply IH. congruence. Qed.
Lemma set_nth_id {A} (d : A) : forall i l, set_nth i (nth i l d) l = l.
Proof. induction i as [|i IH]; intros [|a l]; cbn; try reflexivity. f_equal. apply IH. Qed.
Lemma set_nth_twice {A} : forall i (x y : A) l, set_nth i x (set_nth i y l) = set_nth i x l.
Proof. induction i as [|i IH]; intros x y [|a l]; cbn; try reflexivity. f_equal. apply IH. Qed.

Lemma chain_lt y i k : chain y i = Some k -> (i < length (ych y))%nat.
Proof. unfold chain. intros H. destruct (Nat.lt_ge_cases i (length (ych y))) as [L|L]; [exact L|]. rewrite nth_overflow in H by exact L. discriminate. Qed.
Lemma chain_put_same y i k k' : chain y i = Some k -> chain (put_chain y i k') i = k'.
Proof. intros H. unfold chain, put_chain. cbn. apply set_nth_same. exact (chain_lt _ _ _ H). Qed.
Lemma chain_put_other y i j k' : i <> j -> chain (put_chain y i k') j = chain y j.
Proof. intros H. unfold chain, put_chain. cbn. apply set_nth_other. exact H. Qed.
Lemma oat_set_same O i o : (i < length O)%nat -> oat (set_nth i o O) i = o.
Proof. apply set_nth_same. Qed.
Lemma oat_set_other O i j o : i <> j -> oat (set_nth i o O) j = oat O j.
Proof. apply set_nth_other. Qed.

(** ** The invariant *)
Record Cor (e : env) (y : sys) (O : list obs) : Prop := {
  c_len : length O = length (ych y);
  c_egg : exists k, chain y 0 = Some k /\ kg k = egg_cfg e /\ ksh k = true;
  c_eseg : segs (oat O 0) = [(ebuf e, EGG_MEM)];
  c_cfg : forall i k, chain y i = Some k -> i <> 0%nat -> kg k = thread_cfg e (cpool (kg k)) /\ ksh k = kdes k;
  c_reach : forall i k, chain y i = Some k -> reach (kg k) (set_mem (kst k) (ymem y)) (oat O i);
  c_ev : forall i k, chain y i = Some k -> sevs (kst k) = [];
  c_struct : forall i k, chain y i = Some k -> i <> 0%nat -> exists d, In (mkBlk (cpool (kg k)) CHAIN_SIZE d) (live (oat O 0));
  c_light : exists d, In (mkBlk (ylight y) LIGHT_SIZE d) (live (oat O 0));
  c_inj : forall i j ki kj, chain y i = Some ki -> chain y j = Some kj -> cpool (kg ki) = cpool (kg kj) -> i = j;
  c_dead : forall i, chain y i = None -> oat O i = obs0;
  c_segs : forall i j ki kj r1 r2, i <> 0%nat -> j <> 0%nat -> i <> j -> chain y i = Some ki -> chain y j = Some kj ->
    In r1 (segs (oat O i)) -> In r2 (segs (oat O j)) -> apart r1 r2;
  c_away : forall i k r, i <> 0%nat -> chain y i = Some k -> In r (segs (oat O i)) -> apart r (eegg e, POOL_SIZE) /\ apart r (ebuf e, EGG_MEM);
  c_tls : forall t i, ytls y t = Some i -> exists k, chain y i = Some k /\ (i <> 0%nat -> kdes k = false);
  c_uniq : forall t t' i, ytls y t = Some i -> ytls y t' = Some i -> i <> 0%nat -> t = t' }.

Lemma cor_eq e y y' O : Cor e y O -> ymem y' = ymem y -> ych y' = ych y -> ytls y' = ytls y -> ylight y' = ylight y -> Cor e y' O.
Proof.
  intros [] H1 H2 H3 H4. unfold chain in *. rewrite <- H1, <- H2, <- H3, <- H4 in *. constructor; unfold chain; assumption.
Qed.

(** The memory may change outside what is private to a chain. *)
Lemma cor_mem e y O m : Cor e y O ->
  (forall i k x, chain y i = Some k -> private (kg k) (set_mem (kst k) (ymem y)) (oat O i) x -> m x = ymem y x) -> Cor e (yset_mem y m) O.
Proof.
  intros I H. destruct I. constructor; try assumption.
  intros i k Hk. change (chain y i = Some k) in Hk. pose proof (reach_store _ _ _ m (c_reach0 i k Hk) (fun x => H i k x Hk)) as R.
  rewrite clear_mem, (clear_idem _ (c_ev0 i k Hk)) in R. exact R.
Qed.

(** Where the structures are. *)
Section Facts.
  Variables (e : env) (y : sys) (O : list obs).
  Hypothesis W : wf_env e.
  Hypothesis I : Cor e y O.

  Lemma egg_reach : exists k, chain y 0 = Some k /\ kg k = egg_cfg e /\ ksh k = true /\ reach (egg_cfg e) (set_mem (kst k) (ymem y)) (oat O 0).
  Proof. destruct (c_egg _ _ _ I) as (k & H1 & H2 & H3). exists k. rewrite <- H2. split; [exact H1|]. split; [reflexivity|]. split; [exact H3|]. apply (c_reach _ _ _ I). exact H1. Qed.

  (** A block of the egg. *)
  Lemma egg_block b k : chain y 0 = Some k -> In b (blocks (oat O 0)) ->
    exists u, usable (set_mem (kst k) (ymem y)) (bp b) u /\ bn b <= u /\ 1 <= bn b /\ ebuf e + 48 <= bp b /\ bp b + u <= ebuf e + EGG_MEM - 16.
  Proof.
    intros Hk Hb. destruct (blocks_inside _ _ _ (c_reach _ _ _ I 0%nat k Hk) b Hb) as (u & x & z & H1 & H2 & H3 & H4 & H5 & H6).
    rewrite (c_eseg _ _ _ I) in H4. destruct H4 as [H4|[]]. injection H4 as <- <-. exists u. auto.
  Qed.
  Lemma struct_in i k : chain y i = Some k -> i <> 0%nat -> exists ke d u, chain y 0 = Some ke /\ In (mkBlk (cpool (kg k)) CHAIN_SIZE d) (live (oat O 0)) /\
    usable (set_mem (kst ke) (ymem y)) (cpool (kg k)) u /\ CHAIN_SIZE <= u /\ ebuf e + 48 <= cpool (kg k) /\ cpool (kg k) + u <= ebuf e + EGG_MEM - 16.
  Proof.
    intros Hk Hi. destruct (c_struct _ _ _ I i k Hk Hi) as (d & Hd). destruct (c_egg _ _ _ I) as (ke & H1 & _).
    destruct (egg_block (mkBlk (cpool (kg k)) CHAIN_SIZE d) ke H1) as (u & K1 & K2 & K3 & K4 & K5); [apply in_or_app; left; exact Hd|].
    exists ke, d, u. cbn [bp bn] in *. repeat (split; [assumption|]). assumption.
  Qed.
  Lemma pool_in i k : chain y i = Some k -> i <> 0%nat -> ebuf e + 48 <= cpool (kg k) /\ cpool (kg k) + POOL_SIZE <= ebuf e + EGG_MEM - 16.
  Proof. intros Hk Hi. destruct (struct_in i k Hk Hi) as (ke & d & u & H1 & H2 & H3 & H4 & H5 & H6). unfold CHAIN_SIZE, POOL_SIZE in *. lia. Qed.
  (** Structures of two chains do not meet. *)
  Lemma pools_apart i j ki kj : chain y i = Some ki -> chain y j = Some kj -> i <> 0%nat -> j <> 0%nat -> i <> j ->
    apart (cpool (kg ki), POOL_SIZE) (cpool (kg kj), POOL_SIZE).
  Proof.
    intros Hi Hj Ni Nj Nij. destruct (struct_in i ki Hi Ni) as (ke & d & u & H1 & H2 & H3 & H4 & _). destruct (struct_in j kj Hj Nj) as (ke' & d' & u' & H1' & H2' & H3' & H4' & _).
    rewrite H1 in H1'. injection H1' as <-. destruct (blocks_apart _ _ _ (c_reach _ _ _ I 0%nat ke H1)) as (_ & BA).
    assert (AP := BA _ _ u u' (in_or_app _ _ _ (or_introl H2)) (in_or_app _ _ _ (or_introl H2'))). cbn [bp] in AP.
    assert (NE : mkBlk (cpool (kg ki)) CHAIN_SIZE d <> mkBlk (cpool (kg kj)) CHAIN_SIZE d').
    { intros K. injection K as K _. exact (Nij (c_inj _ _ _ I i j ki kj Hi Hj K)). }
    specialize (AP NE H3 H3'). unfold apart, CHAIN_SIZE, POOL_SIZE in *. cbn [fst snd] in *. lia.
  Qed.
  Lemma egg_apart : apart (eegg e, POOL_SIZE) (ebuf e, EGG_MEM).
  Proof. destruct W as (_ & _ & _ & _ & _ & A & _). unfold apart, CHAIN_SIZE, POOL_SIZE in *. cbn [fst snd] in *. lia. Qed.
End Facts.

Definition done (k : chn) (s : st) : chn := mkChn (kg k) (ksh k) (kdes k) (clear_ev s).
Definition after_step (y : sys) (i : nat) (k : chn) (s : st) : sys := put_chain (yset_mem y (smem s)) i (Some (done k s)).


(** One call on one chain, before the registry and the source are updated. *)
Lemma cor_step e y O i k c fuel r s' : wf_env e -> Cor e y O -> chain y i = Some k ->
  valid (kg k) (set_mem (kst k) (ymem y)) (oat O i) c -> not_refill c -> (forall x, ~ written c x) ->
  step fuel (kg k) c (set_mem (kst k) (ymem y)) = Ok (r, s') ->
  (forall b z, In (EGet b z) (sevs s') -> apart (b, z) (eegg e, POOL_SIZE) /\ apart (b, z) (ebuf e, EGG_MEM) /\
     forall j kj x, j <> 0%nat -> j <> i -> chain y j = Some kj -> In x (segs (oat O j)) -> apart (b, z) x) ->
  (i = 0%nat -> forall q, target c q -> ~ reserved y q) ->
  Cor e (after_step y i k s') (set_nth i (next (oat O i) c r (sevs s')) O).
Proof.
  intros W I Hk V NR NW E HG HR. pose proof (c_reach _ _ _ I i k Hk) as R. pose proof (reach_step _ _ _ _ _ _ _ R V E) as R'.
  pose proof (step_out _ _ _ _ _ _ _ R V E) as OUT.
  destruct (step_evs _ _ _ _ _ _ _ R V NR E) as (bs & a & Es & Ha & ND & HB & SEG).
  set (o' := next (oat O i) c r (sevs s')) in *. set (O' := set_nth i o' O).
  assert (Li : (i < length O)%nat) by (rewrite (c_len _ _ _ I); exact (chain_lt _ _ _ Hk)).
  assert (Oi : oat O' i = o') by (apply oat_set_same; exact Li).
  assert (Oj : forall j, j <> i -> oat O' j = oat O j) by (intros j H; apply oat_set_other; congruence).
  assert (Ci : chain (after_step y i k s') i = Some (done k s')) by (apply (chain_put_same (yset_mem y (smem s')) i k); exact Hk).
  assert (Cj : forall j, j <> i -> chain (after_step y i k s') j = chain y j) by (intros j H; apply (chain_put_other (yset_mem y (smem s'))); congruence).
  assert (CC : forall j kj, chain (after_step y i k s') j = Some kj -> (j = i /\ kj = done k s') \/ (j <> i /\ chain y j = Some kj)).
  { intros j kj H. destruct (Nat.eq_dec j i) as [->|N]; [left; rewrite Ci in H; injection H as <-; auto|right; rewrite Cj in H by exact N; auto]. }
  assert (NRF : forall b z, c <> ORefill b z) by (intros b z ->; exact NR).
  assert (OUT' : forall x, ~ (cpool (kg k) <= x < cpool (kg k) + POOL_SIZE) -> (forall b z, In (b, z) (segs (oat O i)) -> ~ b <= x < b + z) ->
     (forall b z, In (EGet b z) (sevs s') -> ~ b <= x < b + z) -> smem s' x = ymem y x).
  { intros x H1 H2 H3. rewrite (OUT x).
    - destruct c; try reflexivity. exfalso. apply (NW 0). exact Logic.I.
    - intros b z [[K|K]|[K|K]]; [injection K as <- <-; exact H1|exact (H2 b z K)|exact (H3 b z K)|exfalso; exact (NRF b z K)]. }
  assert (EGGNOEV : i = 0%nat -> sevs s' = []).
  { intros ->. destruct (c_egg _ _ _ I) as (k0 & K1 & K2 & _). rewrite Hk in K1. injection K1 as <-. unfold step in E.
    assert (NS : csrc (kg k) = false) by (rewrite K2; reflexivity). rewrite (exec_nosrc _ _ _ _ _ _ NS E). reflexivity. }
  assert (KEPT : i = 0%nat -> forall b u, In b (live (oat O 0)) -> reserved y (bp b) -> usable (set_mem (kst k) (ymem y)) (bp b) u ->
     In b (live (oat O' 0)) /\ forall x, bp b <= x < bp b + u -> smem s' x = ymem y x).
  { intros -> b u Hb Hr Hu. destruct (step_kept _ _ _ _ _ _ _ b u R V E Hb) as (K1 & _ & K3); [intros K; exact (HR eq_refl _ K Hr)|exact Hu|].
    rewrite Oi. split; [exact K1|]. intros x Hx. apply (K3 x Hx). apply NW. }
  assert (LIVE0 : forall b, In b (live (oat O 0)) -> reserved y (bp b) -> In b (live (oat O' 0))).
  { intros b Hb Hr. destruct (Nat.eq_dec i 0) as [E0|N0]; [|rewrite Oj by congruence; exact Hb].
    destruct (egg_block e y O I b k) as (u & Hu & _); [rewrite <- E0; exact Hk|apply in_or_app; left; exact Hb|].
    apply (KEPT E0 b u Hb Hr Hu). }
  constructor.
  - unfold after_step, O', put_chain. cbn. rewrite !set_nth_len. apply (c_len _ _ _ I).
  - destruct (c_egg _ _ _ I) as (k0 & K1 & K2 & K3). destruct (Nat.eq_dec 0 i) as [<-|N].
    + rewrite Hk in K1. injection K1 as <-. exists (done k s'). split; [exact Ci|]. cbn. auto.
    + exists k0. rewrite Cj by exact N. auto.
  - destruct (Nat.eq_dec 0 i) as [<-|N]; [|rewrite Oj by exact N; apply (c_eseg _ _ _ I)].
    rewrite Oi. unfold o'. rewrite (EGGNOEV eq_refl). rewrite <- (c_eseg _ _ _ I). destruct c; try contradiction; reflexivity.
  - intros j kj Hj Nj. destruct (CC j kj Hj) as [(-> & ->)|(N & H)]; [cbn; apply (c_cfg _ _ _ I i k Hk Nj)|apply (c_cfg _ _ _ I j kj H Nj)].
  - intros j kj Hj. destruct (CC j kj Hj) as [(-> & ->)|(N & H)].
    + rewrite Oi. change (reach (kg k) (set_mem (clear_ev s') (smem s')) o').
      change (set_mem (clear_ev s') (smem s')) with (clear_ev s'). apply reach_clear. exact R'.
    + rewrite Oj by exact N. change (ymem (after_step y i k s')) with (smem s').
      assert (P : forall x, private (kg kj) (set_mem (kst kj) (ymem y)) (oat O j) x -> smem s' x = ymem y x).
      { intros x ((b & z & Hbz & Hx) & HP). destruct (Nat.eq_dec i 0) as [E0|N0].
        - (* the egg *) assert (Nj : j <> 0%nat) by congruence. destruct Hbz as [Hbz|Hbz].
          + injection Hbz as <- <-. destruct (struct_in e y O I j kj H Nj) as (ke & d & u & S1 & S2 & S3 & S4 & S5 & S6). rewrite <- E0, Hk in S1. injection S1 as <-.
            destruct (KEPT E0 _ u S2 (or_intror (ex_intro _ j (ex_intro _ kj (conj Nj (conj H eq_refl))))) S3) as (_ & K). apply K. cbn [bp]. unfold POOL_SIZE, CHAIN_SIZE in *. lia.
          + destruct (c_away _ _ _ I j kj (b, z) Nj H Hbz) as (A1 & A2). destruct (c_egg _ _ _ I) as (k0 & K1 & K2 & _). rewrite <- E0, Hk in K1. injection K1 as <-.
            apply OUT'.
            * rewrite K2. cbn [egg_cfg cpool]. unfold apart in A1. cbn [fst snd] in A1. lia.
            * rewrite E0, (c_eseg _ _ _ I). intros b' z' [K|[]]. injection K as <- <-. unfold apart in A2. cbn [fst snd] in A2. lia.
            * rewrite (EGGNOEV E0). intros b' z' [].
        - destruct (pool_in e y O I i k Hk N0) as (PI1 & PI2). destruct (Nat.eq_dec j 0) as [E1|Nj].
          + subst j. destruct (c_egg _ _ _ I) as (k0 & K1 & K2 & _). rewrite H in K1. injection K1 as <-.
            assert (EG : (eegg e <= x < eegg e + POOL_SIZE) \/ (ebuf e <= x < ebuf e + EGG_MEM)).
            { rewrite K2 in Hbz. cbn [egg_cfg cpool] in Hbz. rewrite (c_eseg _ _ _ I) in Hbz. destruct Hbz as [K|[K|[]]]; injection K as <- <-; auto. }
            apply OUT'.
            * intros Hin. destruct (struct_in e y O I i k Hk N0) as (ke & d & u & S1 & S2 & S3 & S4 & S5 & S6). rewrite H in S1. injection S1 as <-.
              apply (HP _ u _ S2 S3). cbn [bp]. unfold POOL_SIZE, CHAIN_SIZE in *. lia.
            * intros b' z' K. destruct (c_away _ _ _ I i k (b', z') N0 Hk K) as (A1 & A2). unfold apart in A1, A2. cbn [fst snd] in A1, A2. lia.
            * intros b' z' K. destruct (HG b' z' K) as (A1 & A2 & _). unfold apart in A1, A2. cbn [fst snd] in A1, A2. lia.
          + destruct (pool_in e y O I j kj H Nj) as (PJ1 & PJ2). destruct Hbz as [Hbz|Hbz].
            * injection Hbz as <- <-. pose proof (pools_apart e y O I i j k kj Hk H N0 Nj ltac:(congruence)) as PA. unfold apart in PA. cbn [fst snd] in PA.
              apply OUT'.
              -- lia.
              -- intros b' z' K. destruct (c_away _ _ _ I i k (b', z') N0 Hk K) as (A1 & A2). unfold apart in A1, A2. cbn [fst snd] in A1, A2. unfold EGG_MEM in *. lia.
              -- intros b' z' K. destruct (HG b' z' K) as (A1 & A2 & _). unfold apart in A1, A2. cbn [fst snd] in A1, A2. unfold EGG_MEM in *. lia.
            * destruct (c_away _ _ _ I j kj (b, z) Nj H Hbz) as (A1 & A2). unfold apart in A1, A2. cbn [fst snd] in A1, A2.
              apply OUT'.
              -- unfold EGG_MEM in *. lia.
              -- intros b' z' K. pose proof (c_segs _ _ _ I i j k kj _ _ N0 Nj ltac:(congruence) Hk H K Hbz) as AP. unfold apart in AP. cbn [fst snd] in AP. lia.
              -- intros b' z' K. destruct (HG b' z' K) as (_ & _ & A3). specialize (A3 j kj (b, z) Nj N H Hbz). unfold apart in A3. cbn [fst snd] in A3. lia. }
      pose proof (reach_store _ _ _ (smem s') (c_reach _ _ _ I j kj H) P) as RS. rewrite clear_mem, (clear_idem _ (c_ev _ _ _ I j kj H)) in RS. exact RS.
  - intros j kj Hj. destruct (CC j kj Hj) as [(-> & ->)|(N & H)]; [reflexivity|apply (c_ev _ _ _ I j kj H)].
  - intros j kj Hj Nj. assert (K : exists kj0, chain y j = Some kj0 /\ cpool (kg kj0) = cpool (kg kj)).
    { destruct (CC j kj Hj) as [(-> & ->)|(N & H)]; [exists k; auto|exists kj; auto]. }
    destruct K as (kj0 & K1 & K2). destruct (c_struct _ _ _ I j kj0 K1 Nj) as (d & Hd). exists d. rewrite <- K2. apply LIVE0; [exact Hd|].
    right. exists j, kj0. cbn. auto.
  - destruct (c_light _ _ _ I) as (d & Hd). exists d. apply LIVE0; [exact Hd|]. left. reflexivity.
  - intros j1 j2 k1 k2 H1 H2 EP.
    assert (K : forall j kj, chain (after_step y i k s') j = Some kj -> exists kj0, chain y j = Some kj0 /\ cpool (kg kj0) = cpool (kg kj)).
    { intros j kj Hj. destruct (CC j kj Hj) as [(-> & ->)|(N & H)]; [exists k; auto|exists kj; auto]. }
    destruct (K _ _ H1) as (a1 & A1 & A2). destruct (K _ _ H2) as (a2 & B1 & B2). apply (c_inj _ _ _ I j1 j2 a1 a2 A1 B1). congruence.
  - intros j Hj. destruct (Nat.eq_dec j i) as [->|N]; [rewrite Ci in Hj; discriminate|]. rewrite Cj in Hj by exact N. rewrite Oj by exact N. apply (c_dead _ _ _ I j Hj).
  - assert (KS : forall x, i <> 0%nat -> In x (segs o') -> forall j kj r2, j <> 0%nat -> j <> i -> chain y j = Some kj -> In r2 (segs (oat O j)) -> apart x r2).
    { intros x N0 Hx j kj r2 Nj Nji Hj Hr. apply SEG in Hx as ([Hx|Hx] & _).
      - apply (c_segs _ _ _ I i j k kj x r2); auto.
      - destruct (HG (fst x) (snd x)) as (_ & _ & A3); [rewrite Es; apply in_or_app; right; exact Hx|]. specialize (A3 j kj r2 Nj Nji Hj Hr). destruct x; exact A3. }
    intros j1 j2 k1 k2 r1 r2 N1 N2 N12 H1 H2 Hr1 Hr2. destruct (CC _ _ H1) as [(-> & ->)|(M1 & G1)]; destruct (CC _ _ H2) as [(-> & ->)|(M2 & G2)].
    + congruence.
    + rewrite Oi in Hr1. rewrite Oj in Hr2 by exact M2. apply (KS r1 N1 Hr1 j2 k2 r2); auto.
    + rewrite Oi in Hr2. rewrite Oj in Hr1 by exact M1. pose proof (KS r2 N2 Hr2 j1 k1 r1 N1 M1 G1 Hr1) as AP. unfold apart in *. tauto.
    + rewrite Oj in Hr1 by exact M1. rewrite Oj in Hr2 by exact M2. apply (c_segs _ _ _ I j1 j2 k1 k2); auto.
  - intros j kj x Nj Hj Hx. destruct (CC _ _ Hj) as [(-> & ->)|(N & H)].
    + rewrite Oi in Hx. apply SEG in Hx as ([Hx|Hx] & _); [apply (c_away _ _ _ I i k x Nj Hk Hx)|].
      destruct (HG (fst x) (snd x)) as (A1 & A2 & _); [rewrite Es; apply in_or_app; right; exact Hx|]. destruct x; auto.
    + rewrite Oj in Hx by exact N. apply (c_away _ _ _ I j kj x Nj H Hx).
  - intros t j Ht. destruct (c_tls _ _ _ I t j Ht) as (kj & H1 & H2). destruct (Nat.eq_dec j i) as [->|N].
    + rewrite Hk in H1. injection H1 as <-. exists (done k s'). auto.
    + exists kj. rewrite Cj by exact N. auto.
  - apply (c_uniq _ _ _ I).
Qed.
