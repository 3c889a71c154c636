(** Calls on a chain of the allocator: they return, keep the invariant and leave the other blocks alone. *)
From Verif Require Import Word Res Mem SizeClassModel ChainModel ChainInv ChainSpec ChainEv ChainProps ChainCap ChainSrc ChainPut ChainMore ChainCore ChainFuel ChainRealloc ChainTrace
  RegionModel RegionSpec RegionProofs LightModel LightSpec LightProofs PosixModel PosixSpec PosixChain PosixInv PosixSrc PosixLocal PosixMid PosixCall.
From Coq Require Import ZArith List Bool Lia.
Import ListNotations.
Open Scope Z_scope.

(** With enough fuel the computation gives one answer, and with less it runs out of fuel or gives the same one. *)
Definition Runs {A} (x : nat -> res A) (P : A -> Prop) : Prop :=
  exists f0 a, P a /\ (forall f, (f0 <= f)%nat -> x f = Ok a) /\ (forall f, x f = OutOfFuel \/ x f = Ok a).
Lemma runs_ok {A} (x : nat -> res A) a (P : A -> Prop) : (forall f, x f = Ok a) -> P a -> Runs x P.
Proof. intros H K. exists 0%nat, a. auto. Qed.
Lemma runs_bind {A B} (x : nat -> res A) (k : nat -> A -> res B) (P : A -> Prop) (Q : B -> Prop) :
  Runs x P -> (forall a, P a -> Runs (fun f => k f a) Q) -> Runs (fun f => rbind (x f) (k f)) Q.
Proof.
  intros (f0 & a & Pa & H1 & H2) K. destruct (K a Pa) as (f1 & b & Qb & K1 & K2). exists (Nat.max f0 f1), b. split; [exact Qb|]. split.
  - intros f Hf. rewrite H1 by lia. apply K1. lia.
  - intros f. destruct (H2 f) as [-> | ->]; cbn [rbind]; [left; reflexivity|apply K2].
Qed.
Lemma runs_mono {A} (x : nat -> res A) (P Q : A -> Prop) : Runs x P -> (forall a, P a -> Q a) -> Runs x Q.
Proof. intros (f0 & a & Pa & H) K. exists f0, a. split; [auto|exact H]. Qed.
Lemma runs_ext {A} (x y : nat -> res A) (P : A -> Prop) : (forall f, y f = x f) -> Runs x P -> Runs y P.
Proof. intros H (f0 & a & Pa & H1 & H2). exists f0, a. split; [exact Pa|]. split; intros f; [intros Hf|]; rewrite H; auto. Qed.
Lemma runs_any {A} (x : nat -> res A) (P : A -> Prop) f a : Runs x P -> x f = Ok a -> P a.
Proof. intros (f0 & b & Pb & _ & H2) E. destruct (H2 f) as [K|K]; congruence. Qed.

Lemma runs_step g s o c : reach g s o -> valid g s o c -> Runs (fun f => step f g c s) (fun '(r, s') => exists f, step f g c s = Ok (r, s')).
Proof.
  intros R V. set (f0 := Z.to_nat (held o + extra g c + 1)). assert (FO : fuel_ok g o c f0) by (unfold fuel_ok, f0; lia).
  destruct (step_runs g s o c f0 R V FO) as (r & s' & E & _). exists f0, (r, s'). split; [exists f0; exact E|]. unfold step in *. split.
  - intros f Hf. destruct (exec_fuel f0 f g c Hf (clear_ev s)) as [K|K]; congruence.
  - intros f. destruct (Nat.le_ge_cases f f0) as [Hf|Hf].
    + destruct (exec_fuel f f0 g c Hf (clear_ev s)) as [K|K]; [left; exact K|right; congruence].
    + destruct (exec_fuel f0 f g c Hf (clear_ev s)) as [K|K]; right; congruence.
Qed.

Definition SInv (e : env) (y : sys) (O : list obs) : Prop := exists out C L, Mid e y O 0 [] [] out C L.
Lemma sinv_cor e y O : SInv e y O -> Cor e y O.
Proof. intros (out & C & L & M). exact (m_cor _ _ _ _ _ _ _ _ _ M). Qed.
Lemma sinv_env e y O : SInv e y O -> wf_env e.
Proof. intros (out & C & L & M). exact (m_env _ _ _ _ _ _ _ _ _ M). Qed.

(** Calls that the allocator makes on its chains. *)
Definition no_answer (c : op) : Prop :=
  match c with OAlloc _ _ None | ORealloc _ _ _ None | OFree _ | ORemote _ | OPurge => True | _ => False end.
Definition asks (c : op) : option Z := match c with OAlloc d n _ | ORealloc d _ n _ => if n =? 0 then None else Some (ask_size d n) | _ => None end.
Definition cvalid (e : env) (y : sys) (O : list obs) (os : list (Z * Z) -> Z) (i : nat) (k : chn) (c : op) : Prop :=
  no_answer c /\ valid (kg k) (set_mem (kst k) (ymem y)) (oat O i) c /\
  (forall z, i <> 0%nat -> asks c = Some z -> os_ok e y os z) /\
  (i = 0%nat -> forall q, target c q -> ~ reserved y q).

(** What a call on chain [i] does. *)
Record Called (e : env) (y : sys) (O : list obs) (i : nat) (k : chn) (c : op) (r : Z) (y' : sys) (O' : list obs) (c' : op) (s' : st) : Prop := {
  d_inv : SInv e y' O';
  d_tr : ytr y' = TCall i c' r (sevs s') :: ytr y;
  d_obs : O' = set_nth i (next (oat O i) c' r (sevs s')) O;
  d_tls : ytls y' = ytls y;
  d_lt : ylight y' = ylight y;
  d_len : length (ych y') = length (ych y);
  d_ch : chain y' i = Some (done k s');
  d_oth : forall j, j <> i -> chain y' j = chain y j;
  d_op : c' = c \/ i <> 0%nat /\ exists b, c' = with_grant c b;
  d_ask : asks c = None \/ i = 0%nat -> c' = c /\ incl (lmap (ysrc y')) (lmap (ysrc y));
  d_tgt : i = 0%nat -> forall q, target c' q -> ~ reserved y q;
  d_nw : forall x, ~ written c' x;
  d_nr : not_refill c';
  d_null : i <> 0%nat -> asks c <> None -> r <> 0;
  d_step : exists fuel m, step fuel (kg k) c' (set_mem (kst k) m) = Ok (r, s') /\ valid (kg k) (set_mem (kst k) m) (oat O i) c' /\
     reach (kg k) (set_mem (kst k) m) (oat O i) /\ (forall x, chains_mem e y O x -> m x = ymem y x) /\
     (forall x, chains_mem e y O x -> ~ (cpool (kg k) <= x < cpool (kg k) + POOL_SIZE) -> (forall b z, In (b, z) (segs (oat O i)) -> ~ b <= x < b + z) -> smem s' x = ymem y x) /\
     (asks c = None \/ i = 0%nat -> m = ymem y);
  d_mem : forall x, chains_mem e y' O' x -> ymem y' x = smem s' x }.

Lemma no_gets g s c fuel r s' : no_answer c -> step fuel g c s = Ok (r, s') -> forall b z, ~ In (EGet b z) (sevs s').
Proof.
  intros N E b z HI. assert (NR : not_refill c) by (destruct c; try exact Logic.I; contradiction).
  destruct (ev_exec fuel g c NR _ _ _ E) as (evs & K1 & K2 & _). cbn [clear_ev sevs] in K1. rewrite app_nil_r in K1.
  rewrite K1 in HI. rewrite Forall_forall in K2. destruct (K2 _ HI) as (_ & K3). cbn [gets] in K3.
  destruct c as [d n [b'|]|p|h p n [b'|]|b' z'|x v|p| |m]; try contradiction; discriminate.
Qed.
Lemma still_after e y i k s' y' O : still (after_step y i k s') y' -> chain y i = Some k ->
  ytls y' = ytls y /\ ylight y' = ylight y /\ ytr y' = ytr y /\ length (ych y') = length (ych y) /\ chain y' i = Some (done k s') /\ (forall j, j <> i -> chain y' j = chain y j) /\
  (forall x, chains_mem e y' O x -> chains_mem e (after_step y i k s') O x).
Proof.
  intros (S1 & S2 & S3 & S4) Hk. split; [exact S2|]. split; [exact S3|]. split; [exact S4|].
  split; [rewrite S1; unfold after_step, put_chain; cbn; apply set_nth_len|].
  split; [unfold chain; rewrite S1; apply (chain_put_same (yset_mem y (smem s')) i k); exact Hk|].
  split; [intros j N; unfold chain; rewrite S1; apply (chain_put_other (yset_mem y (smem s'))); congruence|].
  intros x [K|[K|K]]; [left; exact K|right; left; exact K|right; right]. unfold chain in *. rewrite <- S1. exact K.
Qed.

(** A segment got in the call is not in memory of the chains of before. *)
Lemma granted_new e y O b z out C L G x : Mid e y O 0 G [] out C L -> In (b, z) G -> chains_mem e y O x -> ~ b <= x < b + z.
Proof.
  intros M Hg Hx. assert (Ho : In (b, z) out) by (apply (m_out _ _ _ _ _ _ _ _ _ M); auto).
  destruct (mid_page _ _ _ _ _ _ _ _ _ M _ Ho) as (_ & (_ & _ & _ & A1 & A2) & _). unfold ChainSpec.apart in A1, A2. cbn [fst snd] in *.
  destruct Hx as [K|[K|(j & kj & b' & z' & K1 & K2 & K3 & K4)]]; [lia|lia|].
  assert (A : ChainSpec.apart (b, z) (b', z')).
  { apply (mid_apart _ _ _ _ _ _ _ _ _ M); [exact Ho|exact (mid_seg _ _ _ _ _ _ _ _ _ M j kj _ K1 K2 K3)|]. intros K5. rewrite <- K5 in K3.
    exact (m_new _ _ _ _ _ _ _ _ _ M _ (or_intror Hg) j kj K1 K2 K3). }
  unfold ChainSpec.apart in A. cbn [fst snd] in A. lia.
Qed.
(** Memory the chain may look at. *)
Lemma chain_rng e y O i k r x : Cor e y O -> chain y i = Some k -> In r (srng (kst k)) -> fst r <= x < fst r + snd r -> chains_mem e y O x.
Proof.
  intros Co Hk Hr Hx. destruct (reach_rng _ _ _ (c_reach _ _ _ Co i k Hk)) as (K & _). apply K in Hr. destruct (Nat.eq_dec i 0) as [->|N].
  - destruct (kg_cases _ _ _ _ _ Co Hk) as (_ & _ & _ & EG). rewrite (EG eq_refl), (c_eseg _ _ _ Co) in Hr.
    destruct Hr as [->|[<-|[]]]; cbn [fst snd egg_cfg cpool] in Hx; [left; unfold POOL_SIZE, CHAIN_SIZE in *; lia|right; left; exact Hx].
  - destruct Hr as [->|Hr].
    + pose proof (pool_in e y O Co i k Hk N). cbn [fst snd] in Hx. right. left. lia.
    + right. right. destruct r as [b z]. exists i, k, b, z. auto.
Qed.
Lemma agree_rng e y O i k m : Cor e y O -> chain y i = Some k -> (forall x, chains_mem e y O x -> m x = ymem y x) ->
  agree (srng (set_mem (kst k) (ymem y))) (ymem y) m.
Proof. intros Co Hk H x b z Hb Hx. apply H. exact (chain_rng e y O i k (b, z) x Co Hk Hb Hx). Qed.

Lemma call_finish e y O i k c c' fuel r s' m G out C L yy :
  Mid e yy O 0 G [] out C L -> ych yy = ych y -> ytls yy = ytls y -> ylight yy = ylight y -> ytr yy = ytr y ->
  (forall x, chains_mem e y O x -> ymem yy x = ymem y x) -> ymem yy = m ->
  chain y i = Some k -> (c' = c \/ i <> 0%nat /\ exists b, c' = with_grant c b) ->
  (asks c = None \/ i = 0%nat -> c' = c /\ incl (lmap (ysrc yy)) (lmap (ysrc y)) /\ m = ymem y) -> (i <> 0%nat -> asks c <> None -> r <> 0) ->
  valid (kg k) (set_mem (kst k) m) (oat O i) c' -> not_refill c' -> (forall x, ~ written c' x) -> (i = 0%nat -> forall q, target c' q -> ~ reserved y q) ->
  step fuel (kg k) c' (set_mem (kst k) m) = Ok (r, s') -> (forall b z, In (EGet b z) (sevs s') <-> In (b, z) G) ->
  exists y', finish e i k c' r s' yy = Ok (r, y') /\ Called e y O i k c r y' (set_nth i (next (oat O i) c' r (sevs s')) O) c' s'.
Proof.
  intros M Y1 Y2 Y3 Y4 Y5 <- Hk0 HOP HASK HNULL V NR NW HR E HG.
  assert (Hk : chain yy i = Some k) by (unfold chain in *; rewrite Y1; exact Hk0).
  assert (HR' : i = 0%nat -> forall q, target c' q -> ~ reserved yy q).
  { intros Ei q Hq Hr. apply (HR Ei q Hq). unfold reserved, chain in *. rewrite <- Y1, <- Y3. exact Hr. }
  destruct (mid_step e yy O i k c' fuel r s' G out C L (mid_c _ _ _ _ (cpool (kg k)) _ _ _ _ M) Hk V NR NW E HG HR') as (y' & o1 & C1 & L1 & EV & M1 & S1 & N1 & F1 & _).
  destruct (still_after e yy i k s' y' (set_nth i (next (oat O i) c' r (sevs s')) O) S1 Hk) as (T1 & T2 & T3 & T4 & T5 & T6 & T7).
  exists (log y' (TCall i c' r (sevs s'))). split; [unfold finish; unfold after_step in EV; unfold done in EV; rewrite EV; reflexivity|].
  constructor.
  - exists o1, C1, L1. destruct (mid_c _ _ _ _ 0 _ _ _ _ M1). constructor; try assumption. apply (cor_eq e y'); try reflexivity. assumption.
  - cbn [log yset_tr ytr]. rewrite T3, Y4. reflexivity.
  - reflexivity.
  - cbn. congruence.
  - cbn. congruence.
  - cbn. rewrite T4, Y1. reflexivity.
  - exact T5.
  - intros j N. change (chain (log y' (TCall i c' r (sevs s'))) j) with (chain y' j). rewrite (T6 j N). unfold chain. rewrite Y1. reflexivity.
  - exact HOP.
  - intros H. destruct (HASK H) as (K1 & K2 & _). split; [exact K1|]. intros x Hx. apply K2, N1, Hx.
  - exact HR.
  - exact NW.
  - exact NR.
  - exact HNULL.
  - exists fuel, (ymem yy). split; [exact E|]. split; [exact V|]. split; [exact (c_reach _ _ _ (m_cor _ _ _ _ _ _ _ _ _ M) i k Hk)|]. split; [exact Y5|].
    split; [|intros H; apply (HASK H)]. intros x Hx H1 H2. rewrite <- (Y5 x Hx).
    apply (st_out e yy O i k c' fuel r s' G out C L (mid_c _ _ _ _ (cpool (kg k)) _ _ _ _ M) Hk V NR NW E HG HR' x H1 H2).
    intros b z Hb. apply (granted_new e yy O b z out C L G x M Hb). destruct Hx as [K|[K|K]]; [left; exact K|right; left; exact K|right; right]. unfold chain in *. rewrite Y1. exact K.
  - intros x Hx. cbn [log yset_tr ymem]. apply F1. apply T7. exact Hx.
Qed.

Lemma runs_call e y O os i k c : SInv e y O -> chain y i = Some k -> cvalid e y O os i k c ->
  Runs (fun f => call f e os i c y) (fun '(r, y') => exists O' c' s', Called e y O i k c r y' O' c' s').
Proof.
  intros (out & C & L & M) Hk (NA & V & HOS & HR). pose proof (m_cor _ _ _ _ _ _ _ _ _ M) as Co. pose proof (c_reach _ _ _ Co i k Hk) as R.
  assert (NR : not_refill c) by (destruct c; try exact Logic.I; contradiction).
  assert (NW : forall a, ~ written c a) by (destruct c; intros a K; try contradiction).
  eapply runs_ext; [intros f; unfold call; rewrite Hk; reflexivity|]. apply (runs_bind _ _ _ _ (runs_step _ _ _ _ R V)).
  intros (r & s') (f0 & E). destruct (kg_cases _ _ _ _ _ Co Hk) as (_ & _ & CS & CE).
  assert (FIN : wants (kg k) c r = None -> Runs (fun f => finish e i k c r s' y) (fun '(r, y') => exists O' c' s', Called e y O i k c r y' O' c' s')).
  { intros WN. destruct (call_finish e y O i k c c f0 r s' (ymem y) [] out C L y M) as (y' & E' & K); try assumption; try reflexivity.
    - left. reflexivity.
    - intros _. split; [reflexivity|]. split; [intros x Hx; exact Hx|reflexivity].
    - intros Ni Hn ->. unfold wants in WN. rewrite (CS Ni) in WN. cbn in WN. destruct c; cbn [asks] in Hn; try congruence; destruct (n =? 0); congruence.
    - intros b z. split; [intros K; exfalso; exact (no_gets _ _ _ _ _ _ NA E b z K)|intros []].
    - apply (runs_ok _ (r, y')); [intros f; exact E'|]. eexists; exists c, s'; exact K. }
  destruct (wants (kg k) c r) as [z|] eqn:WN; [|apply FIN; reflexivity]. clear FIN.
  assert (SRC : csrc (kg k) = true) by (unfold wants in WN; destruct (csrc (kg k)); [reflexivity|discriminate]).
  assert (Ni : i <> 0%nat) by (intros Ei; rewrite (CE Ei) in SRC; discriminate).
  assert (Er : r = 0) by (unfold wants in WN; rewrite SRC in WN; cbn [andb] in WN; destruct (Z.eqb_spec r 0); [assumption|discriminate]). subst r.
  assert (SH : exists d n, z = ask_size d n /\ n <> 0 /\ asks c = Some z /\ request_ok (kg k) (oat O i) d n None /\
     ((exists b0, c = OAlloc d n b0) \/ exists p b0, c = ORealloc d p n b0) /\ no_grant c).
  { unfold wants in WN. rewrite SRC in WN. cbn [andb Z.eqb] in WN. destruct c as [d n gr|p|h p n gr|b' z'|x v|p| |mm]; try discriminate.
    - destruct (n =? 0) eqn:En; [discriminate|]. injection WN as <-. exists d, n. cbn [asks]. rewrite En. destruct gr; [contradiction|].
      split; [reflexivity|]. split; [lia|]. split; [reflexivity|]. split; [exact V|]. split; [eauto|exact Logic.I].
    - destruct (n =? 0) eqn:En; [discriminate|]. injection WN as <-. exists h, n. cbn [asks]. rewrite En. destruct gr; [contradiction|]. destruct V as (V1 & V2 & V3).
      split; [reflexivity|]. split; [lia|]. split; [reflexivity|]. split; [exact V2|]. split; [eauto|exact Logic.I]. }
  destruct SH as (d & n & Ez & Hn & HA & RQ & SHP & NG). pose proof RQ as (RQ1 & RQ2 & RQ3 & RQ4 & _).
  assert (Hd : 0 <= d) by (destruct RQ2 as [->|(kk & K1 & ->)]; [lia|apply Z.pow_nonneg; lia]).
  destruct (ask_size_min d n RQ1 Hd) as (AS1 & AS2). rewrite <- Ez in AS1, AS2.
  destruct (mid_request e y O 0 out C L os z M (HOS z Ni HA) ltac:(lia) AS2) as (b & l & C' & ER & M2 & ML & FR).
  apply (runs_bind (fun f => request (elg e) (loop_bound (source y)) z (Some (os (lmap (ysrc y)))) (source y)) _ (fun x => x = (b, l))).
  { apply (runs_ok _ (b, l)); [intros f; exact ER|reflexivity]. }
  intros (b1 & l1) Eb. injection Eb as -> ->.
  set (y2 := yset_src y l) in *. assert (Hk2 : chain y2 i = Some k) by exact Hk. pose proof (m_cor _ _ _ _ _ _ _ _ _ M2) as Co2.
  pose proof (c_reach _ _ _ Co2 i k Hk2) as R2. change (ymem y2) with (lmem l) in R2.
  assert (NRG : new_range (kg k) (oat O i) b z).
  { assert (Hob : In (b, z) ((b, z) :: out)) by (left; reflexivity).
    destruct (mid_page _ _ _ _ _ _ _ _ _ M2 _ Hob) as (_ & (P1 & P2 & P3 & P4 & P5) & (B1 & B2 & B3 & B4)). cbn [fst snd] in *.
    unfold new_range. change (2 ^ 56) with 72057594037927936. split; [lia|]. split; [lia|]. split; [lia|]. split; [lia|]. split; [lia|]. intros rr [<-|Hr].
    - pose proof (pool_in e y O Co i k Hk Ni). unfold ChainSpec.apart in *. cbn [fst snd] in *. lia.
    - apply (mid_apart _ _ _ _ _ _ _ _ _ M2); [exact Hob|exact (mid_seg _ _ _ _ _ _ _ _ _ M2 i k rr Ni Hk2 Hr)|]. intros <-.
      exact (m_new _ _ _ _ _ _ _ _ _ M2 _ (or_intror (or_introl eq_refl)) i k Ni Hk2 Hr). }
  assert (RQb : request_ok (kg k) (oat O i) d n (Some b)).
  { split; [exact RQ1|]. split; [exact RQ2|]. split; [exact RQ3|]. split; [exact RQ4|]. intros _ b' Hb'. injection Hb' as <-. rewrite <- Ez. exact NRG. }
  assert (V2 : valid (kg k) (set_mem (kst k) (lmem l)) (oat O i) (with_grant c b) /\ valid (kg k) (set_mem (kst k) (lmem l)) (oat O i) c).
  { destruct SHP as [(b0 & ->)|(p & b0 & ->)]; cbn [with_grant valid] in *; [split; [exact RQb|]; destruct b0; [contradiction|exact V]|].
    destruct V as (V1 & _ & V3). split; [split; [exact V1|split; [exact RQb|exact V3]]|]. destruct b0; [contradiction|]. split; [exact V1|split; [exact RQ|exact V3]]. }
  destruct V2 as (V2 & V2').
  apply (runs_bind _ _ _ _ (runs_step _ _ _ _ R2 V2)). intros (r2 & s2) (f2 & E2).
  assert (GR : r2 <> 0 /\ In (EGet b z) (sevs s2) /\ forall b' z', In (EGet b' z') (sevs s2) -> (b', z') = (b, z)).
  { destruct (step_local _ _ _ c f0 0 s' (lmem l) R NG E (agree_rng e y O i k (lmem l) Co Hk FR)) as (m' & E3). rewrite set_mem_twice in E3.
    assert (E3' := step_fuel _ _ _ f0 (Nat.max f0 f2) _ ltac:(lia) E3). assert (E2' := step_fuel _ _ _ f2 (Nat.max f0 f2) _ ltac:(lia) E2).
    destruct SHP as [(b0 & ->)|(p & b0 & ->)]; (destruct b0; [contradiction|]); cbn [with_grant] in *.
    - destruct (alloc_grant _ _ _ d n b _ _ _ _ _ R2 SRC Hn V2' V2 E3' eq_refl E2') as (K1 & K2). rewrite K2, <- Ez. split; [exact K1|]. split; [left; reflexivity|].
      intros b' z' [K|[]]. congruence.
    - destruct (realloc_grant _ _ _ d p n b _ _ _ _ _ R2 SRC Hn V2' V2 E3' eq_refl E2') as (K1 & K2). rewrite <- Ez in K2. split; [exact K1|]. split; [exact K2|].
      destruct (reach_good _ _ _ R2) as (A & F & GD). destruct (realloc_info _ _ _ _ _ _ _ _ _ _ _ _ GD V2 E2) as (_ & _ & (S1 & _)).
      intros b' z' K. destruct (S1 b' z' K) as (_ & K3 & K4). congruence. }
  destruct GR as (GR1 & GR2 & GR3).
  assert (EX : existsb PosixModel.is_get (sevs s2) = true) by (apply existsb_exists; exists (EGet b z); auto).
  rewrite EX.
  destruct (call_finish e y O i k c (with_grant c b) f2 r2 s2 (lmem l) [(b, z)] ((b, z) :: out) C' L y2 M2) as (y' & E' & K); try assumption; try reflexivity.
  - right. eauto.
  - intros [H|H]; congruence.
  - intros _ _. exact GR1.
  - destruct SHP as [(b0 & ->)|(p & b0 & ->)]; exact Logic.I.
  - destruct SHP as [(b0 & ->)|(p & b0 & ->)]; intros x K; exact K.
  - intros Ei. contradiction.
  - intros b' z'. split; [intros K; left; symmetry; exact (GR3 b' z' K)|intros [K|[]]]. injection K as <- <-. exact GR2.
  - apply (runs_ok _ (r2, y')); [intros f; exact E'|]. eexists; exists (with_grant c b), s2; exact K.
Qed.
