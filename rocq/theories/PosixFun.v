(** The functions between the chains and the public interface: a chain call with the destruction that may follow, creation of a chain. *)
From Verif Require Import Word Res Mem SizeClassModel ChainModel ChainInv ChainSpec ChainEv ChainProps ChainCap ChainSrc ChainPut ChainMore ChainCore ChainFuel ChainTrace
  RegionModel RegionSpec RegionProofs LightModel LightSpec LightProofs PosixModel PosixSpec PosixChain PosixInv PosixSrc PosixLocal PosixMid PosixCall PosixRun PosixEff.
From Coq Require Import ZArith List Bool Lia.
Import ListNotations.
Open Scope Z_scope.

(** ** Life of the chains *)
Definition untouched (i : nat) (tr : list titem) : Prop :=
  forall x, In x tr -> match x with TCall j _ _ _ | TNew j | TDestroy j => j <> i | TUnlock _ => True end.
Record Life (y : sys) (O : list obs) (y' : sys) (O' : list obs) (tr : list titem) : Prop := {
  l_len : (length (ych y) <= length (ych y'))%nat;
  l_dead : forall i, (i < length (ych y))%nat -> chain y i = None -> chain y' i = None /\ untouched i tr;
  l_live : forall i k, chain y i = Some k ->
    (exists k', chain y' i = Some k' /\ kg k' = kg k /\ ksh k' = ksh k /\ kdes k' = kdes k /\
       (kdes k = true -> i <> 0%nat -> (segs (oat O i) = [] <-> segs (oat O' i) = [])) /\ ~ In (TDestroy i) tr) \/
    (kdes k = true /\ i <> 0%nat /\ segs (oat O i) <> [] /\ chain y' i = None /\
       exists t1 r t2, tr = t1 ++ TDestroy i :: TCall 0 (OFree (cpool (kg k))) r [] :: t2 /\ untouched i t1 /\ ~ In (TDestroy i) t2) }.

Lemma untouched_app i t1 t2 : untouched i t1 -> untouched i t2 -> untouched i (t1 ++ t2).
Proof. intros H1 H2 x H. apply in_app_iff in H as [H|H]; [exact (H1 x H)|exact (H2 x H)]. Qed.
Lemma untouched_nil i : untouched i [].
Proof. intros x []. Qed.
Lemma life_refl y O : Life y O y O [].
Proof.
  constructor; [lia|intros i _ H; split; [exact H|apply untouched_nil]|]. intros i k H. left. exists k. split; [exact H|]. split; [reflexivity|]. split; [reflexivity|]. split; [reflexivity|]. split; [tauto|intros []].
Qed.
Lemma life_trans y O y1 O1 y2 O2 t1 t2 : Life y O y1 O1 t1 -> Life y1 O1 y2 O2 t2 -> Life y O y2 O2 (t2 ++ t1).
Proof.
  intros A B. constructor.
  - pose proof (l_len _ _ _ _ _ A). pose proof (l_len _ _ _ _ _ B). lia.
  - intros i Hi H. destruct (l_dead _ _ _ _ _ A i Hi H) as (A1 & A2). destruct (l_dead _ _ _ _ _ B i) as (B1 & B2); [pose proof (l_len _ _ _ _ _ A); lia|exact A1|].
    split; [exact B1|apply untouched_app; assumption].
  - intros i k H. assert (Hi := chain_lt _ _ _ H). destruct (l_live _ _ _ _ _ A i k H) as [(k1 & A1 & A2 & A3 & A4 & A5 & A6)|(A1 & A2 & A3 & A4 & u1 & ur & u2 & A5 & A6 & A7)].
    + destruct (l_live _ _ _ _ _ B i k1 A1) as [(k2 & B1 & B2 & B3 & B4 & B5 & B6)|(B1 & B2 & B3 & B4 & u1 & ur & u2 & B5 & B6 & B7)].
      * left. exists k2. split; [exact B1|]. split; [congruence|]. split; [congruence|]. split; [congruence|]. split.
        -- intros K1 K2. rewrite (A5 K1 K2). apply B5; congruence.
        -- intros K. apply in_app_iff in K as [K|K]; [exact (B6 K)|exact (A6 K)].
      * right. assert (K1 : kdes k = true) by congruence. split; [exact K1|]. split; [exact B2|]. split; [intros K; apply B3; apply (A5 K1 B2); exact K|]. split; [exact B4|].
        exists u1, ur, (u2 ++ t1). rewrite B5, <- app_assoc, A2. split; [reflexivity|]. split; [exact B6|]. intros K. apply in_app_iff in K as [K|K]; [exact (B7 K)|exact (A6 K)].
    + right. split; [exact A1|]. split; [exact A2|]. split; [exact A3|].
      destruct (l_dead _ _ _ _ _ B i) as (B1 & B2); [pose proof (l_len _ _ _ _ _ A); lia|exact A4|].
      split; [exact B1|]. exists (t2 ++ u1), ur, u2. rewrite A5, app_assoc. split; [reflexivity|]. split; [apply untouched_app; assumption|exact A7].
Qed.
Lemma life_still y O y' : ych y' = ych y -> Life y O y' O [].
Proof. intros E. pose proof (life_refl y O) as L. destruct L. constructor; unfold chain in *; rewrite E; assumption. Qed.

(** All that a part of a public call does. *)
Record Act (e : env) (y : sys) (O : list obs) (y' : sys) (O' : list obs) (T : Z -> Prop) (N : nat -> blk -> Prop) (tr : list titem) : Prop := {
  a_eff : Eff e y O y' O' T N;
  a_tr : ytr y' = tr ++ ytr y;
  a_obs : O' = obs_after O tr;
  a_life : Life y O y' O' tr }.
Lemma act_refl e y O : SInv e y O -> Act e y O y O noT noN [].
Proof. intros H. constructor; [apply eff_refl; exact H|reflexivity|reflexivity|apply life_refl]. Qed.
Lemma act_join e y O y1 O1 y2 O2 T1 N1 t1 T2 N2 t2 T N : Act e y O y1 O1 T1 N1 t1 -> Act e y1 O1 y2 O2 T2 N2 t2 -> Eff e y O y2 O2 T N -> Act e y O y2 O2 T N (t2 ++ t1).
Proof.
  intros A B E. constructor; [exact E| | |].
  - rewrite (a_tr _ _ _ _ _ _ _ _ B), (a_tr _ _ _ _ _ _ _ _ A), app_assoc. reflexivity.
  - rewrite (a_obs _ _ _ _ _ _ _ _ B), (a_obs _ _ _ _ _ _ _ _ A). unfold obs_after. rewrite fold_right_app. reflexivity.
  - exact (life_trans _ _ _ _ _ _ _ _ (a_life _ _ _ _ _ _ _ _ A) (a_life _ _ _ _ _ _ _ _ B)).
Qed.
Lemma act_seq e y O y1 O1 y2 O2 t1 T N t2 : Act e y O y1 O1 noT noN t1 -> Act e y1 O1 y2 O2 T N t2 -> Act e y O y2 O2 T N (t2 ++ t1).
Proof. intros A B. apply (act_join _ _ _ _ _ _ _ _ _ _ _ _ _ _ _ A B). exact (eff_seq _ _ _ _ _ _ _ _ _ (a_eff _ _ _ _ _ _ _ _ A) (a_eff _ _ _ _ _ _ _ _ B)). Qed.
Lemma act_then e y O y1 O1 y2 O2 T N t1 t2 : Act e y O y1 O1 T N t1 -> Act e y1 O1 y2 O2 noT noN t2 -> Act e y O y2 O2 T N (t2 ++ t1).
Proof. intros A B. apply (act_join _ _ _ _ _ _ _ _ _ _ _ _ _ _ _ A B). exact (eff_then _ _ _ _ _ _ _ _ _ (a_eff _ _ _ _ _ _ _ _ A) (a_eff _ _ _ _ _ _ _ _ B)). Qed.

(** ** States that differ in what the chains do not see *)
Lemma sinv_same e y y' O : SInv e y O -> ymem y' = ymem y -> ych y' = ych y -> ytls y' = ytls y -> ylight y' = ylight y -> yregs y' = yregs y -> ysrc y' = ysrc y -> SInv e y' O.
Proof.
  intros (out & C & L & []) H1 H2 H3 H4 H5 H6. exists out, C, L.
  assert (EC : forall j, chain y' j = chain y j) by (intros j; unfold chain; rewrite H2; reflexivity).
  assert (ES : source y' = source y) by (unfold source; rewrite H1, H6; reflexivity).
  constructor; try assumption.
  - apply (cor_eq e y y' O m_cor H1 H2 H3 H4).
  - rewrite ES. exact m_light.
  - rewrite H6. exact m_page.
  - intros x. rewrite (m_out x). split; (intros [(j & k & K1 & K2 & K3)|K]; [left; exists j, k|right; exact K]); [rewrite EC|rewrite EC in K2]; auto.
  - rewrite H5. exact m_reg.
  - intros x. rewrite (m_L x). split; (intros [(j & k & K1 & K2)|K]; [left; exists j, k|right; exact K]); [rewrite EC|rewrite EC in K1]; auto.
  - intros b z [].
  - intros x [[]|[]].
  - rewrite H6. exact m_cap.
Qed.
Lemma eff_same e y y' O : SInv e y O -> SInv e y' O -> ymem y' = ymem y -> ych y' = ych y -> ylight y' = ylight y -> Eff e y O y' O noT noN.
Proof.
  intros S S' H1 H2 H4. assert (EC : forall j, chain y' j = chain y j) by (intros j; unfold chain; rewrite H2; reflexivity).
  assert (ER : forall p, reserved y' p <-> reserved y p).
  { intros p. unfold reserved. rewrite H4. split; (intros [K|(j & k & K1 & K2 & K3)]; [auto|right; exists j, k]); [rewrite EC in K2|rewrite EC]; auto. }
  assert (EH : forall j b, holds y' O j b <-> holds y O j b) by (intros j b; unfold holds; rewrite EC, ER; reflexivity).
  constructor; [exact S'|exact H4| |].
  - intros j b u K1 _ K2. split; [apply EH; exact K1|]. split; [|rewrite H1; reflexivity]. destruct K2 as (k & K2 & K3). exists k. rewrite EC, H1. auto.
  - intros j b K. left. split; [apply EH; exact K|intros []].
Qed.
Lemma act_log e y O i : SInv e y O -> Act e y O (log y (TUnlock i)) O noT noN [TUnlock i].
Proof.
  intros S. constructor; [|reflexivity|reflexivity|].
  - apply (eff_same e y); try reflexivity; [exact S|]. apply (sinv_same e y); try reflexivity. exact S.
  - destruct (life_still y O (log y (TUnlock i)) eq_refl) as [L1 L2 L3]. constructor.
    + exact L1.
    + intros j H1 H2. split; [exact (proj1 (L2 j H1 H2))|]. intros x [<-|[]]. exact I.
    + intros j k H. destruct (L3 j k H) as [(k' & K)|(_ & _ & _ & _ & [|] & rr & t2 & K & _)]; [|discriminate|discriminate]. left. exists k'. decompose [and] K. repeat (split; [assumption|]). intros [J|[]]. discriminate.
Qed.

(** ** Destruction *)
Lemma no_segs_no_blocks g s o : reach g s o -> segs o = [] -> o = obs0.
Proof.
  intros R E. assert (K : blocks o = []).
  { destruct (blocks o) as [|b l] eqn:EB; [reflexivity|]. destruct (blocks_inside _ _ _ R b) as (u & x & z & _ & _ & _ & H & _); [rewrite EB; left; reflexivity|]. rewrite E in H. contradiction. }
  unfold blocks in K. apply app_eq_nil in K as (K1 & K2). destruct o. cbn in *. subst. reflexivity.
Qed.
Lemma sinv_remove e y O i k : SInv e y O -> chain y i = Some k -> i <> 0%nat -> segs (oat O i) = [] -> (forall t, ytls y t <> Some i) -> SInv e (put_chain y i None) O.
Proof.
  intros (out & C & L & M) Hk Ni Es Ht. pose proof (m_cor _ _ _ _ _ _ _ _ _ M) as Co. pose proof (no_segs_no_blocks _ _ _ (c_reach _ _ _ Co i k Hk) Es) as Eo.
  set (y0 := put_chain y i None). assert (C0 : chain y0 i = None) by exact (chain_put_same y i k None Hk).
  assert (CJ : forall j, j <> i -> chain y0 j = chain y j) by (intros j N; apply chain_put_other; congruence).
  assert (CC : forall j kj, chain y0 j = Some kj -> j <> i /\ chain y j = Some kj).
  { intros j kj H. assert (N : j <> i) by congruence. rewrite (CJ j N) in H. auto. }
  exists out, C, L. destruct M. constructor; try assumption.
  - destruct Co. constructor.
    + unfold y0, put_chain. cbn. rewrite set_nth_len. exact c_len.
    + destruct c_egg as (ke & K). exists ke. rewrite CJ by congruence. exact K.
    + exact c_eseg.
    + intros j kj H. apply CC in H as (_ & H). exact (c_cfg j kj H).
    + intros j kj H. apply CC in H as (_ & H). exact (c_reach j kj H).
    + intros j kj H. apply CC in H as (_ & H). exact (c_ev j kj H).
    + intros j kj H. apply CC in H as (_ & H). exact (c_struct j kj H).
    + exact c_light.
    + intros j1 j2 k1 k2 H1 H2. apply CC in H1 as (_ & H1). apply CC in H2 as (_ & H2). exact (c_inj j1 j2 k1 k2 H1 H2).
    + intros j H. destruct (Nat.eq_dec j i) as [->|N]; [exact Eo|]. rewrite (CJ j N) in H. exact (c_dead j H).
    + intros j1 j2 k1 k2 r1 r2 N1 N2 N3 H1 H2. apply CC in H1 as (_ & H1). apply CC in H2 as (_ & H2). exact (c_segs j1 j2 k1 k2 r1 r2 N1 N2 N3 H1 H2).
    + intros j kj r N H. apply CC in H as (_ & H). exact (c_away j kj r N H).
    + intros t j H. destruct (c_tls t j H) as (kj & K). exists kj. rewrite CJ; [exact K|]. intros ->. exact (Ht t H).
    + exact c_uniq.
  - intros x. rewrite (m_out x). split; (intros [(j & kj & K1 & K2 & K3)|K]; [left; exists j, kj|right; exact K]).
    + split; [exact K1|]. split; [|exact K3]. rewrite CJ; [exact K2|]. intros ->. rewrite Es in K3. exact K3.
    + apply CC in K2 as (_ & K2). auto.
  - intros x. rewrite (m_L x). split; (intros [(j & kj & K1 & K2 & K3)|K]; [left; exists j, kj|right; exact K]).
    + split; [|auto]. rewrite CJ; [exact K1|]. intros ->. rewrite Es in K2. exact K2.
    + apply CC in K1 as (_ & K1). auto.
  - intros x [[]|[]].
Qed.

Lemma nodup_bp {l : list blk} b b' : NoDup (map bp l) -> In b l -> In b' l -> bp b = bp b' -> b = b'.
Proof.
  induction l as [|a l IH]; intros ND H1 H2 E; [contradiction|]. inversion ND as [|? ? ND1 ND2]; subst. destruct H1 as [->|H1], H2 as [->|H2].
  - reflexivity.
  - exfalso. apply ND1. rewrite E. apply in_map. exact H2.
  - exfalso. apply ND1. rewrite <- E. apply in_map. exact H1.
  - exact (IH ND2 H1 H2 E).
Qed.
Lemma live_nodup g s o : reach g s o -> NoDup (map bp (live o)).
Proof. intros R. pose proof (blocks_nodup _ _ _ R) as K. unfold blocks in K. rewrite map_app in K. apply nodup_app_inv in K. apply K. Qed.

(** The state after a free of a block of the egg. *)
Definition eggf (y : sys) (k : chn) (c : op) (r : Z) (s : st) : sys := log (after_step y 0 k s) (TCall 0 c r []).
Lemma eggf_put y i k c r s : i <> 0%nat -> put_chain (eggf y k c r s) i None = eggf (put_chain y i None) k c r s.
Proof. intros N. unfold eggf, after_step, put_chain, yset_ch, log, yset_tr, yset_mem. cbn [ymem ych ytls yregs ysrc ylight ytr]. rewrite (set_nth_comm i 0) by exact N. reflexivity. Qed.
Lemma egg_call e y O k p f : Cor e y O -> chain y 0 = Some k ->
  call f e no_os 0 (OFree p) y = rbind (step f (kg k) (OFree p) (set_mem (kst k) (ymem y))) (fun '(r, s) => Ok (r, eggf y k (OFree p) r s)).
Proof.
  intros Co Hk. unfold call. rewrite Hk. destruct (step f (kg k) (OFree p) (set_mem (kst k) (ymem y))) as [(r & s)| | |] eqn:E; try reflexivity. cbn [rbind].
  assert (NS : csrc (kg k) = false) by (destruct (kg_cases _ _ _ _ _ Co Hk) as (_ & _ & _ & K); rewrite (K eq_refl); reflexivity).
  unfold wants. rewrite NS. cbn [andb]. unfold finish. assert (EV : sevs s = []) by (unfold step in E; rewrite (exec_nosrc _ _ _ _ _ _ NS E); reflexivity).
  rewrite EV. reflexivity.
Qed.

Record Gone (e : env) (y : sys) (O : list obs) (i : nat) (k : chn) (r : Z) (y' : sys) (O' : list obs) : Prop := {
  g_eff : Eff e y O y' O' noT noN;
  g_quiet : Quiet y O y' O';
  g_tls : ytls y' = ytls y;
  g_tr : ytr y' = TDestroy i :: TCall 0 (OFree (cpool (kg k))) r [] :: ytr y;
  g_obs : O' = set_nth 0 (next (oat O 0) (OFree (cpool (kg k))) r []) O;
  g_none : chain y' i = None;
  g_len : length (ych y') = length (ych y);
  g_oth : forall j, j <> i -> j <> 0%nat -> chain y' j = chain y j;
  g_egg : exists k0 k1, chain y 0 = Some k0 /\ chain y' 0 = Some k1 /\ kg k1 = kg k0 /\ ksh k1 = ksh k0 /\ kdes k1 = kdes k0;
  g_ob : oat O i = obs0;
  g_i : i <> 0%nat }.

Lemma gone_eff e y O i k : SInv e y O -> chain y i = Some k -> i <> 0%nat -> oat O i = obs0 -> SInv e (put_chain y i None) O ->
  Eff e y O (put_chain y i None) O noT (fun j b => bp b = cpool (kg k)).
Proof.
  intros S Hk Ni Eo S0. assert (CJ : forall j, j <> i -> chain (put_chain y i None) j = chain y j) by (intros j N; apply chain_put_other; congruence).
  assert (C0 : chain (put_chain y i None) i = None) by exact (chain_put_same y i k None Hk).
  assert (RS : forall p, reserved (put_chain y i None) p -> reserved y p).
  { intros p [K|(j & kj & K1 & K2 & K3)]; [left; exact K|right; exists j, kj]. rewrite CJ in K2 by congruence. auto. }
  assert (RS' : forall p, reserved y p -> p <> cpool (kg k) -> reserved (put_chain y i None) p).
  { intros p [K|(j & kj & K1 & K2 & K3)] Np; [left; exact K|right; exists j, kj]. rewrite CJ; [auto|]. intros ->. congruence. }
  constructor; [exact S0|reflexivity| |].
  - intros j b u ((kj & Hj) & Hl & Hr) _ (kj' & Hj' & HU). assert (N : j <> i) by (intros ->; rewrite Eo in Hl; exact Hl).
    split; [|split; [|reflexivity]].
    + split; [exists kj; rewrite CJ by exact N; exact Hj|]. split; [exact Hl|]. intros K. exact (Hr (RS _ K)).
    + exists kj'. rewrite CJ by exact N. auto.
  - intros j b ((kj & Hj) & Hl & Hr). assert (N : j <> i) by congruence. rewrite CJ in Hj by exact N. destruct (Z.eq_dec (bp b) (cpool (kg k))) as [K|K]; [right; exact K|left].
    split; [|intros []]. split; [exists kj; exact Hj|]. split; [exact Hl|]. intros J. exact (Hr (RS' _ J K)).
Qed.

Lemma runs_settle e y O i k evs : SInv e y O -> chain y i = Some k -> (i = 0%nat -> evs = []) ->
  Runs (fun f => settle f e i evs y) (fun y' => (last_gone k evs = false /\ y' = y) \/ (last_gone k evs = true /\ exists r O', Gone e y O i k r y' O')).
Proof.
  intros S Hk HI. destruct (last_gone k evs) eqn:EL; [|apply (runs_ok _ y); [intros f; unfold settle; rewrite Hk, EL; reflexivity|left; auto]].
  pose proof EL as EL'. unfold last_gone in EL'. repeat (apply andb_prop in EL' as (EL' & ?)).
  assert (Ni : i <> 0%nat) by (intros E0; rewrite (HI E0) in *; discriminate). pose proof (sinv_cor _ _ _ S) as Co.
  assert (Es : segs (oat O i) = []).
  { destruct (kg_cases _ _ _ _ _ Co Hk) as (_ & _ & K & _). pose proof (source_count _ _ _ (c_reach _ _ _ Co i k Hk) (K Ni)) as SC. cbn [set_mem scnt] in SC.
    destruct (segs (oat O i)); [reflexivity|cbn [length] in SC; lia]. }
  assert (Ht : forall t, ytls y t <> Some i) by (intros t K; destruct (c_tls _ _ _ Co t i K) as (k' & K1 & K2); rewrite Hk in K1; injection K1 as <-; rewrite (K2 Ni) in EL'; discriminate).
  pose proof (sinv_remove e y O i k S Hk Ni Es Ht) as S0. pose proof (no_segs_no_blocks _ _ _ (c_reach _ _ _ Co i k Hk) Es) as Eo.
  set (y0 := put_chain y i None) in *. pose proof (sinv_cor _ _ _ S0) as Co0.
  destruct (c_egg _ _ _ Co) as (k0 & Hk0 & EG & _). assert (Hk0' : chain y0 0 = Some k0) by (unfold y0; rewrite chain_put_other by congruence; exact Hk0).
  destruct (c_struct _ _ _ Co i k Hk Ni) as (d & Hd). pose proof (c_reach _ _ _ Co 0%nat k0 Hk0) as R0.
  assert (NRS : ~ reserved y0 (cpool (kg k))).
  { intros [K|(j & kj & K1 & K2 & K3)].
    - destruct (c_light _ _ _ Co) as (d' & Hd'). assert (E1 := nodup_bp _ _ (live_nodup _ _ _ R0) Hd Hd' K). discriminate.
    - assert (N : j <> i) by (intros ->; unfold y0 in K2; rewrite (chain_put_same y i k None Hk) in K2; discriminate). unfold y0 in K2. rewrite chain_put_other in K2 by congruence.
      exact (N (c_inj _ _ _ Co j i kj k K2 Hk K3)). }
  assert (CV : cvalid e y0 O no_os 0 k0 (OFree (cpool (kg k)))).
  { split; [exact Logic.I|]. split; [right; exists CHAIN_SIZE, d; exact Hd|]. split; [intros z K; congruence|]. intros _ q ->. exact NRS. }
  pose proof (runs_call e y0 O no_os 0%nat k0 (OFree (cpool (kg k))) S0 Hk0' CV) as RC.
  eapply runs_ext; [intros f; unfold settle; rewrite Hk, EL, (egg_call e y O k0 (cpool (kg k)) f Co Hk0); reflexivity|].
  eapply (runs_bind _ (fun _ a => match a with (_, y1) => Ok (log (put_chain y1 i None) (TDestroy i)) end) (fun a => exists f s, a = (fst a, eggf y k0 (OFree (cpool (kg k))) (fst a) s) /\
     step f (kg k0) (OFree (cpool (kg k))) (set_mem (kst k0) (ymem y)) = Ok (fst a, s))).
  { eapply (runs_bind _ (fun _ a => match a with (r, s) => Ok (r, eggf y k0 (OFree (cpool (kg k))) r s) end)); [exact (runs_step _ _ _ _ R0 (proj1 (proj2 CV)))|].
    intros (r & s) (f & E). apply (runs_ok _ (r, eggf y k0 (OFree (cpool (kg k))) r s)); [reflexivity|]. exists f, s. auto. }
  intros (r & y1) (f & s & E1 & E2). cbn [fst] in *. injection E1 as ->.
  eapply runs_ok; [intros g; reflexivity|]. right. split; [reflexivity|]. rewrite (eggf_put _ _ _ _ _ _ Ni). fold y0.
  assert (RA := runs_any _ _ f (r, eggf y0 k0 (OFree (cpool (kg k))) r s) RC). cbv beta in RA.
  destruct RA as (O' & c' & s' & D).
  { rewrite (egg_call e y0 O k0 (cpool (kg k)) f Co0 Hk0'). change (ymem y0) with (ymem y). rewrite E2. reflexivity. }
  destruct (d_ask _ _ _ _ _ _ _ _ _ _ _ D (or_introl eq_refl)) as (-> & DI).
  assert (EV : sevs s' = []) by (pose proof (d_tr _ _ _ _ _ _ _ _ _ _ _ D) as K; cbn in K; congruence).
  exists r, O'. set (y1 := eggf y0 k0 (OFree (cpool (kg k))) r s) in *.
  assert (S1 : SInv e (log y1 (TDestroy i)) O') by (apply (sinv_same e y1); try reflexivity; exact (d_inv _ _ _ _ _ _ _ _ _ _ _ D)).
  assert (E01 : Eff e y0 O y1 O' (atT (cpool (kg k))) noN).
  { apply (eff_sub _ _ _ _ _ _ _ _ _ (called_eff _ _ _ _ _ _ _ _ _ _ _ S0 Hk0' D ltac:(discriminate))); [intros p K; exact K|intros j b _ K; exact K|intros j b _ (_ & K); exact K]. }
  assert (E1 : Eff e y O y1 O' noT noN).
  { apply (eff_sub _ _ _ _ _ _ _ _ _ (eff_trans _ _ _ _ _ _ _ _ _ _ _ (gone_eff e y O i k S Hk Ni Eo S0) E01)).
    - intros p [].
    - intros j b (_ & _ & Hr) [[]|K]. apply Hr. right. exists i, k. unfold atT in K. auto.
    - intros j b _ [(K1 & K2)|[]]. exact (K2 K1). }
  assert (CJ : forall j, j <> i -> chain y0 j = chain y j) by (intros j N; apply chain_put_other; congruence).
  constructor.
  - apply (eff_then _ _ _ _ _ _ _ _ _ E1). apply (eff_same e y1); try reflexivity; [exact (d_inv _ _ _ _ _ _ _ _ _ _ _ D)|exact S1].
  - pose proof (called_quiet _ _ _ _ _ _ _ _ _ _ _ S0 Hk0' D (or_introl eq_refl) Logic.I) as (Q1 & Q2). split; [exact Q1|]. intros j kj rg J1 J2. destruct (Q2 j kj rg J1 J2) as ((kj' & K1) & K2).
    assert (N : j <> i) by (intros ->; unfold y0 in K1; rewrite (chain_put_same y i k None Hk) in K1; discriminate). split; [exists kj'; rewrite <- CJ by exact N; exact K1|exact K2].
  - exact (d_tls _ _ _ _ _ _ _ _ _ _ _ D).
  - reflexivity.
  - rewrite (d_obs _ _ _ _ _ _ _ _ _ _ _ D), EV. reflexivity.
  - change (chain y1 i = None). rewrite (d_oth _ _ _ _ _ _ _ _ _ _ _ D i Ni). exact (chain_put_same y i k None Hk).
  - change (length (ych y1) = length (ych y)). rewrite (d_len _ _ _ _ _ _ _ _ _ _ _ D). unfold y0, put_chain. cbn. apply set_nth_len.
  - intros j N1 N2. change (chain y1 j = chain y j). rewrite (d_oth _ _ _ _ _ _ _ _ _ _ _ D j N2). apply CJ. exact N1.
  - exists k0, (done k0 s'). split; [exact Hk0|]. split; [exact (d_ch _ _ _ _ _ _ _ _ _ _ _ D)|]. auto.
  - exact Eo.
  - exact Ni.
Qed.

Lemma gets_only evs : forall l, existsb is_put evs = false -> incl l (fold_right apply_ev l evs).
Proof.
  induction evs as [|[b z|b] evs IH]; intros l H x K; cbn [fold_right apply_ev existsb is_put orb] in *; [exact K|right; exact (IH l H x K)|discriminate].
Qed.
(** What may follow the call on the chain: destruction, then unlock when [w]. *)
Definition after (i : nat) (k : chn) (w : bool) (u : list titem) : Prop :=
  exists v, u = (if w then [TUnlock i] else []) ++ v /\ (v = [] \/ i <> 0%nat /\ kdes k = true /\ exists r, v = [TDestroy i; TCall 0 (OFree (cpool (kg k))) r []]).

Record Chained (e : env) (y : sys) (O : list obs) (i : nat) (k : chn) (c : op) (r : Z) (y' : sys) (O' : list obs) (c' : op) (y1 : sys) (O1 : list obs) (s' : st) (w : bool) (u : list titem) : Prop := {
  h_call : Called e y O i k c r y1 O1 c' s';
  h_eff : Eff e y1 O1 y' O' noT noN;
  h_act : Act e y O y' O' (target c') (fun j b => j = i /\ new_blk (oat O i) c' r b) (u ++ [TCall i c' r (sevs s')]);
  h_after : after i k w u;
  h_quiet : asks c = None \/ i = 0%nat -> Quiet y O y' O';
  h_tls : ytls y' = ytls y }.

Lemma life_chain e y O i k c r y1 O1 c' s' : SInv e y O -> chain y i = Some k -> Called e y O i k c r y1 O1 c' s' -> no_answer c ->
  (forall h n gr, c <> ORealloc h 0 n gr) -> (kdes k = true -> i <> 0%nat -> forall d n gr, c <> OAlloc d n gr) ->
  i <> 0%nat -> kdes k = true ->
  (segs (oat O i) = [] -> segs (oat O1 i) = [] /\ existsb is_put (sevs s') = false) /\
  (segs (oat O i) <> [] -> segs (oat O1 i) = [] -> last_gone (done k s') (sevs s') = true).
Proof.
  intros S Hk D NA NP ND Ni Kd. pose proof (sinv_cor _ _ _ S) as Co. pose proof (sinv_cor _ _ _ (d_inv _ _ _ _ _ _ _ _ _ _ _ D)) as Co1.
  destruct (d_step _ _ _ _ _ _ _ _ _ _ _ D) as (fuel & m & E & V & R & _). split.
  - intros Es. pose proof (no_segs_no_blocks _ _ _ R Es) as Eo.
    assert (HA : asks c = None).
    { destruct (d_op _ _ _ _ _ _ _ _ _ _ _ D) as [EC|(_ & b & EC)]; rewrite EC in V; destruct c as [d n gr|p|h p n gr|bb z|x v|p| |mm]; try reflexivity.
      - exfalso. exact (ND Kd Ni d n gr eq_refl).
      - exfalso. destruct V as ([->|(m0 & d & V & _)] & _); [exact (NP h n gr eq_refl)|rewrite Eo in V; exact V].
      - exfalso. exact (ND Kd Ni d n gr eq_refl).
      - exfalso. destruct V as ([->|(m0 & d & V & _)] & _); [exact (NP h n gr eq_refl)|rewrite Eo in V; exact V]. }
    destruct (called_quiet _ _ _ _ _ _ _ _ _ _ _ S Hk D (or_introl HA) NA) as (_ & Q).
    split.
    + destruct (segs (oat O1 i)) as [|rg l] eqn:ES; [reflexivity|]. exfalso.
      destruct (Q i (done k s') rg (d_ch _ _ _ _ _ _ _ _ _ _ _ D)) as (_ & K); [rewrite ES; left; reflexivity|]. rewrite Es in K. exact K.
    + destruct (existsb is_put (sevs s')) eqn:EP; [|reflexivity]. exfalso. apply existsb_exists in EP as (x & X1 & X2). destruct x as [b z|b]; [discriminate|].
      destruct (step_evs _ _ _ _ _ _ _ R V (d_nr _ _ _ _ _ _ _ _ _ _ _ D) E) as (bs & a & Ev & Ha & _ & HB & _). rewrite Ev in X1. apply in_app_iff in X1 as [X1|X1].
      * apply in_map_iff in X1 as (b' & Eb & X1). injection Eb as ->. destruct (HB b X1) as (z & K). rewrite Es in K. exact K.
      * destruct Ha as [Ha|(b' & z & Ha)]; rewrite Ha in X1; [exact X1|]. destruct X1 as [X1|[]]. discriminate.
  - intros Es Es'. unfold last_gone. cbn [done kdes ksh kst clear_ev scnt]. destruct (c_cfg _ _ _ Co i k Hk Ni) as (_ & KS). rewrite KS, Kd. cbn [andb].
    destruct (existsb is_put (sevs s')) eqn:EP.
    + cbn [andb]. pose proof (c_reach _ _ _ Co1 i _ (d_ch _ _ _ _ _ _ _ _ _ _ _ D)) as R1. destruct (kg_cases _ _ _ _ _ Co Hk) as (_ & _ & K & _).
      pose proof (source_count _ _ _ R1 (K Ni)) as SC. rewrite Es' in SC. cbn [set_mem scnt done kst clear_ev length] in SC. change (Z.of_nat 0) with 0 in SC. rewrite SC. reflexivity.
    + exfalso. rewrite (cd_oati _ _ _ _ _ _ _ _ _ _ _ S Hk D), next_segs in Es' by apply (d_nr _ _ _ _ _ _ _ _ _ _ _ D).
      pose proof (gets_only (sevs s') (segs (oat O i)) EP) as K. rewrite Es' in K. destruct (segs (oat O i)) as [|rg l]; [congruence|]. exact (K rg (or_introl eq_refl)).
Qed.

(** The two outcomes of a chain call, without the unlock. *)
Lemma chain_alive e y O i k c r y1 O1 c' s' : SInv e y O -> chain y i = Some k -> Called e y O i k c r y1 O1 c' s' -> no_answer c ->
  (forall h n gr, c <> ORealloc h 0 n gr) -> (kdes k = true -> i <> 0%nat -> forall d n gr, c <> OAlloc d n gr) ->
  last_gone (done k s') (sevs s') = false -> Life y O y1 O1 [TCall i c' r (sevs s')].
Proof.
  intros S Hk D NA NP ND LG. pose proof (sinv_cor _ _ _ S) as Co. constructor.
  - rewrite (d_len _ _ _ _ _ _ _ _ _ _ _ D). lia.
  - intros j Hj H. assert (N : j <> i) by congruence. rewrite (d_oth _ _ _ _ _ _ _ _ _ _ _ D j N). split; [exact H|]. intros x [<-|[]]. congruence.
  - intros j kj H. left. destruct (Nat.eq_dec j i) as [->|N].
    + rewrite Hk in H. injection H as <-. exists (done k s'). split; [exact (d_ch _ _ _ _ _ _ _ _ _ _ _ D)|]. split; [reflexivity|]. split; [reflexivity|]. split; [reflexivity|]. split.
      * intros Kd Ni. destruct (life_chain _ _ _ _ _ _ _ _ _ _ _ S Hk D NA NP ND Ni Kd) as (L1 & L2). split; [intros K; apply (L1 K)|].
        intros K. destruct (segs (oat O i)) as [|rg l] eqn:Es; [reflexivity|]. rewrite L2 in LG; [discriminate|discriminate|exact K].
      * intros [K|[]]. discriminate.
    + exists kj. rewrite (d_oth _ _ _ _ _ _ _ _ _ _ _ D j N). split; [exact H|]. split; [reflexivity|]. split; [reflexivity|]. split; [reflexivity|].
      rewrite (cd_oatj _ _ _ _ _ _ _ _ _ _ _ D j N). split; [tauto|]. intros [K|[]]. discriminate.
Qed.
Lemma chain_dies e y O i k c r y1 O1 c' s' r2 y2 O2 : SInv e y O -> chain y i = Some k -> Called e y O i k c r y1 O1 c' s' -> no_answer c ->
  (forall h n gr, c <> ORealloc h 0 n gr) -> (kdes k = true -> i <> 0%nat -> forall d n gr, c <> OAlloc d n gr) ->
  last_gone (done k s') (sevs s') = true -> Gone e y1 O1 i (done k s') r2 y2 O2 ->
  Life y O y2 O2 ([TDestroy i; TCall 0 (OFree (cpool (kg k))) r2 []] ++ [TCall i c' r (sevs s')]).
Proof.
  intros S Hk D NA NP ND LG G. pose proof (sinv_cor _ _ _ S) as Co. pose proof (g_i _ _ _ _ _ _ _ _ G) as Ni.
  assert (EGG : chain y1 0 = chain y 0) by (apply (d_oth _ _ _ _ _ _ _ _ _ _ _ D); congruence).
  destruct (c_egg _ _ _ Co) as (ke & Ke & _). constructor.
  - rewrite (g_len _ _ _ _ _ _ _ _ G), (d_len _ _ _ _ _ _ _ _ _ _ _ D). lia.
  - intros j Hj H. assert (N : j <> i) by congruence. assert (N0 : j <> 0%nat) by congruence.
    rewrite (g_oth _ _ _ _ _ _ _ _ G j N N0), (d_oth _ _ _ _ _ _ _ _ _ _ _ D j N). split; [exact H|]. intros x [<-|[<-|[<-|[]]]]; congruence.
  - intros j kj H. destruct (Nat.eq_dec j i) as [->|N].
    + right. rewrite Hk in H. injection H as <-. assert (Kd : kdes k = true) by (unfold last_gone in LG; cbn [done kdes] in LG; destruct (kdes k); [reflexivity|discriminate]).
      split; [exact Kd|]. split; [exact Ni|]. split.
      * intros Es. destruct (life_chain _ _ _ _ _ _ _ _ _ _ _ S Hk D NA NP ND Ni Kd) as (L1 & _). destruct (L1 Es) as (_ & K). unfold last_gone in LG. rewrite K, andb_false_r in LG. discriminate.
      * split; [exact (g_none _ _ _ _ _ _ _ _ G)|]. exists [], r2, [TCall i c' r (sevs s')]. split; [reflexivity|]. split; [apply untouched_nil|].
        intros [K|[]]; discriminate.
    + left. assert (ND1 : ~ In (TDestroy j) ([TDestroy i; TCall 0 (OFree (cpool (kg k))) r2 []] ++ [TCall i c' r (sevs s')])) by (intros [K|[K|[K|[]]]]; congruence).
      destruct (Nat.eq_dec j 0) as [->|N0].
      * destruct (g_egg _ _ _ _ _ _ _ _ G) as (k0 & k1 & K1 & K2 & K3 & K4 & K5). rewrite EGG, H in K1. injection K1 as <-.
        exists k1. split; [exact K2|]. split; [exact K3|]. split; [exact K4|]. split; [exact K5|]. split; [congruence|exact ND1].
      * exists kj. rewrite (g_oth _ _ _ _ _ _ _ _ G j N N0), (d_oth _ _ _ _ _ _ _ _ _ _ _ D j N). split; [exact H|]. split; [reflexivity|]. split; [reflexivity|]. split; [reflexivity|].
        split; [|exact ND1]. intros _ _. rewrite (g_obs _ _ _ _ _ _ _ _ G), oat_set_other by congruence. rewrite (cd_oatj _ _ _ _ _ _ _ _ _ _ _ D j N). tauto.
Qed.

Lemma runs_chain e y O os i k c : SInv e y O -> chain y i = Some k -> cvalid e y O os i k c ->
  (forall h n gr, c <> ORealloc h 0 n gr) -> (kdes k = true -> i <> 0%nat -> forall d n gr, c <> OAlloc d n gr) ->
  Runs (fun f => chain_call f e os i c y) (fun '(r, y') => exists O' c' y1 O1 s' u, Chained e y O i k c r y' O' c' y1 O1 s' (locks k c (ymem y)) u).
Proof.
  intros S Hk CV NP ND. pose proof (sinv_cor _ _ _ S) as Co. eapply runs_ext; [intros f; unfold chain_call; rewrite Hk; reflexivity|].
  eapply runs_bind; [exact (runs_call e y O os i k c S Hk CV)|]. intros (r & y1) (O1 & c' & s' & D).
  assert (LE : last_evs y1 = sevs s') by (unfold last_evs; rewrite (d_tr _ _ _ _ _ _ _ _ _ _ _ D); reflexivity).
  pose proof (d_inv _ _ _ _ _ _ _ _ _ _ _ D) as S1. pose proof (d_ch _ _ _ _ _ _ _ _ _ _ _ D) as Hk1.
  assert (HI : i = 0%nat -> sevs s' = []).
  { intros Ei. destruct (d_step _ _ _ _ _ _ _ _ _ _ _ D) as (fuel & m & E & _). destruct (kg_cases _ _ _ _ _ Co Hk) as (_ & _ & _ & EG).
    assert (NS : csrc (kg k) = false) by (rewrite (EG Ei); reflexivity). unfold step in E. rewrite (exec_nosrc _ _ _ _ _ _ NS E). reflexivity. }
  assert (NP' : forall h n gr, c' <> ORealloc h 0 n gr).
  { intros h n gr. destruct (d_op _ _ _ _ _ _ _ _ _ _ _ D) as [->|(_ & b & ->)]; [apply NP|]. destruct c; cbn [with_grant]; try discriminate. intros K. injection K as -> -> -> _. exact (NP _ _ _ eq_refl). }
  pose proof (called_eff _ _ _ _ _ _ _ _ _ _ _ S Hk D NP') as E1.
  assert (ULK : forall y2 O2 u, Chained e y O i k c r y2 O2 c' y1 O1 s' false u ->
     exists O' c'0 y3 O3 s'0 u', Chained e y O i k c r (if locks k c (ymem y) then log y2 (TUnlock i) else y2) O' c'0 y3 O3 s'0 (locks k c (ymem y)) u').
  { intros y2 O2 u H. destruct (locks k c (ymem y)); [|exists O2, c', y1, O1, s', u; exact H]. exists O2, c', y1, O1, s', (TUnlock i :: u). destruct H as [H1 H2 H3 H4 H5 H6].
    pose proof (act_log e y2 O2 i (f_inv _ _ _ _ _ _ _ H2)) as AL. constructor.
    - exact H1.
    - exact (eff_then _ _ _ _ _ _ _ _ _ H2 (a_eff _ _ _ _ _ _ _ _ AL)).
    - exact (act_then _ _ _ _ _ _ _ _ _ _ _ H3 AL).
    - destruct H4 as (v & -> & V). exists v. split; [reflexivity|exact V].
    - intros H. exact (H5 H).
    - exact H6. }
  apply (runs_bind (fun f => settle f e i (last_evs y1) y1) _ (fun y2 => exists O2 u, Chained e y O i k c r y2 O2 c' y1 O1 s' false u)); [|intros y2 (O2 & u & H); eapply runs_ok; [intros f; reflexivity|exact (ULK y2 O2 u H)]].
  rewrite LE. eapply runs_mono; [exact (runs_settle e y1 O1 i (done k s') (sevs s') S1 Hk1 HI)|]. intros y2 [(LG & ->)|(LG & r2 & O2 & G)].
  - exists O1, []. constructor.
    + exact D.
    + exact (eff_refl e y1 O1 S1).
    + constructor; [exact E1|exact (d_tr _ _ _ _ _ _ _ _ _ _ _ D)|exact (d_obs _ _ _ _ _ _ _ _ _ _ _ D)|].
      exact (chain_alive _ _ _ _ _ _ _ _ _ _ _ S Hk D (proj1 CV) NP ND LG).
    + exists []. auto.
    + intros H. exact (called_quiet _ _ _ _ _ _ _ _ _ _ _ S Hk D H (proj1 CV)).
    + exact (d_tls _ _ _ _ _ _ _ _ _ _ _ D).
  - exists O2, [TDestroy i; TCall 0 (OFree (cpool (kg k))) r2 []]. constructor.
    + exact D.
    + exact (g_eff _ _ _ _ _ _ _ _ G).
    + constructor.
      * exact (eff_then _ _ _ _ _ _ _ _ _ E1 (g_eff _ _ _ _ _ _ _ _ G)).
      * rewrite (g_tr _ _ _ _ _ _ _ _ G), (d_tr _ _ _ _ _ _ _ _ _ _ _ D). reflexivity.
      * cbn [app obs_after fold_right obs1]. rewrite <- (d_obs _ _ _ _ _ _ _ _ _ _ _ D). exact (g_obs _ _ _ _ _ _ _ _ G).
      * exact (chain_dies _ _ _ _ _ _ _ _ _ _ _ _ _ _ S Hk D (proj1 CV) NP ND LG G).
    + eexists. split; [reflexivity|]. right. split; [exact (g_i _ _ _ _ _ _ _ _ G)|]. split; [|eauto]. unfold last_gone in LG. cbn [done kdes] in LG. destruct (kdes k); [reflexivity|discriminate].
    + intros H. exact (quiet_trans _ _ _ _ _ _ (called_quiet _ _ _ _ _ _ _ _ _ _ _ S Hk D H (proj1 CV)) (g_quiet _ _ _ _ _ _ _ _ G)).
    + rewrite (g_tls _ _ _ _ _ _ _ _ G). exact (d_tls _ _ _ _ _ _ _ _ _ _ _ D).
Qed.
