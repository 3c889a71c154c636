(** The invariant of executions with several threads. *)
From Verif Require Import Word Res Mem SizeClassModel ChainModel Wp ChainInv ChainSpec ChainStep ChainRefill ChainEv ChainProps ChainCap ChainSrc ChainPut ChainMore ChainCore ChainFuel ChainTrace ChainWalk
  RegionModel RegionSpec RegionProofs LightModel LightSpec LightProofs PosixModel PosixSpec PosixChain PosixInv PosixSrc PosixLocal PosixMid PosixCall PosixRun PosixEff PosixFun PosixPub PosixNew PosixApi PosixCopy
  PosixRealloc PosixStart PosixStep ConcModel ConcSpec ConcInv ConcStep.
From Coq Require Import ZArith List Bool Lia.
Import ListNotations.
Open Scope Z_scope.

Record CInv (e : env) (s : cst) (O : list obs) (G : Z -> option (cst * list obs)) : Prop := {
  ci_inv : SInv e (cy s) O;
  ci_job : forall t j, cjobs s t = Some j -> caller (jc j) = Some t /\ exists s0 O0, G t = Some (s0, O0) /\ SInv e (cy s0) O0 /\ jok e (cy s) O t (jc j) (jk j) s0 O0;
  ci_apart : forall t1 t2 j1 j2 p, t1 <> t2 -> cjobs s t1 = Some j1 -> cjobs s t2 = Some j2 -> In p (ptrs (jk j1)) -> In p (ptrs (jk j2)) -> p = 0 }.


Definition marks (s : cst) (O : list obs) (a : act) (s' : cst) (O' : list obs) : Prop :=
  exists t os c i k, a = Go t os /\ cjobs s t = Some (mkJob c KExit) /\ ytls (cy s) t = Some i /\ chain (cy s) i = Some k /\ cy s' = exited (yset_tr (cy s) []) t i k /\ O' = O /\ ytr (cy s') = [].
Record CStep (e : env) (s : cst) (O : list obs) (G : Z -> option (cst * list obs)) (a : act) (r : option (pop * Z * option Z)) (s' : cst) (O' : list obs) : Prop := {
  cs_inv : CInv e s' O' (ghost a s O G);
  cs_obs : O' = obs_after O (ytr (cy s'));
  cs_keep : forall j b u, cholds s O j b -> ~ takes a (bp b) -> size_of (cy s) j (bp b) u ->
    cholds s' O' j b /\ size_of (cy s') j (bp b) u /\ forall x, bp b <= x < bp b + u -> ~ stores a x -> ymem (cy s') x = ymem (cy s) x;
  cs_new : forall j b, cholds s' O' j b -> (cholds s O j b /\ ~ takes a (bp b)) \/ exists c code, r = Some (c, code, Some (bp b));
  cs_ret : forall c code r' t os, r = Some (c, code, r') -> a = Go t os ->
    (exists k, cjobs s t = Some (mkJob c k)) /\ (exists s0 O0, G t = Some (s0, O0) /\ SInv e (cy s0) O0 /\ result e (cy s') O' t c r' s0 O0) /\
    forall q, r' = Some q -> q <> 0 -> ~ in_use s' q /\ forall j b, cholds s O j b -> bp b <> q;
  cs_excl : forall i c r evs, In (TCall i c r evs) (ytr (cy s')) -> exists t j, actor a = Some t /\ cjobs s t = Some j /\ access (cy s) t (jk j) i c;
  cs_life : Life (cy s) O (cy s') O' (ytr (cy s')) \/ marks s O a s' O' }.

(** ** The beginning of calls *)
Lemma size_ok_pos d n : size_ok d (one n) -> 0 <= n.
Proof. intros (H & _). unfold one in H. destruct (Z.eqb_spec n 0); lia. Qed.
Definition starting (s : cst) (O : list obs) (c : pop) (p : Z) : Prop := p = 0 \/ frees c p /\ exists i n d, cholds s O i (mkBlk p n d).
Lemma begin_more e s O c k y' : SInv e (cy s) O -> starts e s O c -> begin e c (yset_tr (cy s) []) = (More k, y') ->
  y' = yset_tr (cy s) [] /\ (forall p, In p (ptrs k) -> starting s O c p) /\ (forall p i b, frees c p -> cholds s O i b -> bp b = p -> In p (ptrs k)) /\
  exists t, caller c = Some t /\ jok e (yset_tr (cy s) []) O t c k s O.
Proof.
  intros S H E. assert (PS : forall i b, holds (cy s) O i b -> 0 < bp b) by (intros i b HB; destruct (held_size _ _ _ _ _ S HB) as (u & _ & _ & _ & K & _); lia).
  assert (ZF : forall p, p = 0 -> forall q i b, q = p -> cholds s O i b -> bp b = q -> In q []) by (intros p Hp q i b Hq (HB & _) Hb; apply PS in HB; lia).
  destruct c as [t n os|t p|t p n os|t a b os|t d n os|t d n os|t n os|t|t i|x v]; cbn [begin starts] in *.
  - injection E as <- <-. split; [reflexivity|]. split; [intros p []|]. split; [intros p i b []|]. exists t. split; [reflexivity|]. cbn [jok]. split; [exact (size_ok_pos _ _ H)|]. split; [exact H|].
    split; [reflexivity|]. split; [intros dd K; injection K as <-; reflexivity|exact Logic.I].
  - injection E as <- <-. split; [reflexivity|]. split.
    { intros q [<-|[]]. destruct H as [H|H]; [left; exact H|right; split; [reflexivity|exact H]]. }
    split; [intros q i b -> _ _; left; reflexivity|]. exists t. split; [reflexivity|]. cbn [jok vok]. split; [|reflexivity].
    destruct H as [H|(i & n & d & H & _)]; [left; exact H|right; exists i, n, d; exact H].
  - destruct H as (HF & HP & HS). pose proof (size_ok_pos _ _ HS) as Hn. destruct (Z.eqb_spec p 0) as [Ep|Np].
    + injection E as <- <-. split; [reflexivity|]. split; [intros q []|]. split; [intros q i b Hq; cbn [frees] in Hq; exact (ZF p Ep q i b Hq)|]. exists t. split; [reflexivity|]. cbn [jok]. split; [exact Hn|]. split; [exact HS|].
      split; [cbn [gives]; rewrite Ep; reflexivity|]. split; [discriminate|exact Ep].
    + destruct HP as [HP|(i & m & d & HP & HD)]; [contradiction|]. destruct (Z.eqb_spec n 0) as [En|Nn].
      * injection E as <- <-. split; [reflexivity|]. split.
        { intros q [<-|[<-|[]]]; [right; split; [reflexivity|eauto]|left; reflexivity]. }
        split; [intros q i' b' -> _ _; left; reflexivity|]. exists t. split; [reflexivity|]. cbn [jok vok]. split; [right; exists i, m, d; exact (proj1 HP)|]. exists os. rewrite En. split; [reflexivity|]. split; [exact Np|]. left. auto.
      * injection E as <- <-. split; [reflexivity|]. split.
        { intros q [<-|[]]. right. split; [reflexivity|eauto]. }
        split; [intros q i' b' -> _ _; left; reflexivity|]. exists t. split; [reflexivity|]. cbn [jok]. unfold one in HS. destruct (Z.eqb_spec n 0) as [K|_]; [contradiction|].
        split; [split; [lia|split; [exact HF|exact HS]]|]. split; [|exists os; reflexivity]. exists i. destruct (held_size _ _ _ _ _ S (proj1 HP)) as (u & U & _). cbn [bp] in U.
        exists m, d, u. split; [exact (proj1 HP)|]. split; [exact HD|]. split; [exact U|]. split; [exact (proj1 HP)|]. split; [exact U|]. reflexivity.
  - injection E as <- <-. destruct H as (Ha & Hb & HT & HS). assert (EW : w64 (a * b) = (a * b) mod 2 ^ 64) by (unfold w64; rewrite W64_val; reflexivity).
    split; [reflexivity|]. split; [intros q []|]. split; [intros q i b' []|]. exists t. split; [reflexivity|]. cbn [jok]. rewrite <- EW in HS. split; [exact (size_ok_pos _ _ HS)|]. split; [exact HS|].
    exists a, b, os. split; [reflexivity|]. split; [reflexivity|]. split; [reflexivity|]. split; [reflexivity|exact HT].
  - destruct (is_pow2 d) eqn:Ed; [|discriminate]. injection E as <- <-. pose proof (H eq_refl) as HS. split; [reflexivity|]. split; [intros q []|]. split; [intros q i b []|]. exists t. split; [reflexivity|]. cbn [jok].
    split; [exact (size_ok_pos _ _ HS)|]. split; [exact HS|]. split; [reflexivity|]. split; [intros dd K; injection K as <-; reflexivity|exact Logic.I].
  - destruct (negb (d mod 8 =? 0) && is_pow2 d); [discriminate|]. injection E as <- <-. destruct H as (_ & HS). split; [reflexivity|]. split; [intros q []|]. split; [intros q i b []|]. exists t. split; [reflexivity|]. cbn [jok].
    split; [exact (size_ok_pos _ _ HS)|]. split; [exact HS|]. split; [reflexivity|]. split; [intros dd K; injection K as <-; reflexivity|exact Logic.I].
  - destruct (is_pow2 4096); [|discriminate]. injection E as <- <-. split; [reflexivity|]. split; [intros q []|]. split; [intros q i b []|]. exists t. split; [reflexivity|]. cbn [jok].
    split; [exact (size_ok_pos _ _ H)|]. split; [exact H|]. split; [reflexivity|]. split; [intros dd K; injection K as <-; reflexivity|exact Logic.I].
  - injection E as <- <-. split; [reflexivity|]. split; [intros q []|]. split; [intros q i b []|]. exists t. split; [reflexivity|]. reflexivity.
  - discriminate.
  - discriminate.
Qed.
Lemma begin_ret e s O c code r y' : SInv e (cy s) O -> starts e s O c -> begin e c (yset_tr (cy s) []) = (Ret code r, y') ->
  Done e (cy s) O c r y' O /\ ytr y' = [] /\ ych y' = ych (cy s) /\ (forall p, ~ frees c p) /\ (r = None \/ r = Some 0) /\
  (forall x, writes c x -> exists i b u, cholds s O i b /\ size_of (cy s) i (bp b) u /\ bp b <= x < bp b + u).
Proof.
  intros S H E. assert (D : pvalid e (cy s) O c -> pexec 0 e c (cy s) = Ok (code, r, y') -> ytr y' = [] -> Done e (cy s) O c r y' O).
  { intros V EE ET. pose proof (pexec_done _ _ _ _ _ _ _ _ S V EE) as D. rewrite ET in D. exact D. }
  destruct c as [t n os|t p|t p n os|t a b os|t d n os|t d n os|t n os|t|t i|x v]; cbn [begin starts] in *; try discriminate.
  - destruct (is_pow2 d) eqn:Ed; [discriminate|]. injection E as <- <- <-. split; [apply D; [intros K; congruence|cbn [pexec]; unfold x_memalign; rewrite Ed; reflexivity|reflexivity]|].
    split; [reflexivity|]. split; [reflexivity|]. split; [intros p []|]. split; [right; reflexivity|intros x []].
  - destruct H as (H & _). rewrite H in E. discriminate.
  - injection E as <- <- <-. split; [apply D; [exact H|reflexivity|reflexivity]|]. split; [reflexivity|]. split; [reflexivity|]. split; [intros p []|]. split; [left; reflexivity|intros x []].
  - injection E as <- <- <-. destruct H as (i & b & u & H1 & H2 & H3). split; [apply D; [exists i, b, u; split; [exact (proj1 H1)|auto]|reflexivity|reflexivity]|].
    split; [reflexivity|]. split; [reflexivity|]. split; [intros p []|]. split; [left; reflexivity|]. intros x' ->. exists i, b, u. auto.
Qed.

(** ** One step *)
Lemma life_tr y O y' O' tr : Life (yset_tr y []) O y' O' tr -> Life y O y' O' tr.
Proof. intros [L1 L2 L3]. constructor; [exact L1|exact L2|exact L3]. Qed.
Lemma kept_start y O t : Kept y O (yset_tr y []) O t (fun _ => True).
Proof. constructor; [intros j b u H _ U; split; [exact H|split; [exact U|reflexivity]]|reflexivity|apply Nat.le_refl|intros i _ H; exact H|intros i H; right; exact H]. Qed.
Lemma zupd_cases {A} (f : Z -> A) t v t' : (t' = t /\ zupd f t v t' = v) \/ (t' <> t /\ zupd f t v t' = f t').
Proof. unfold zupd. destruct (Z.eqb_spec t' t) as [E|E]; [left; auto|right; auto]. Qed.
Lemma call_more e s O G c k t : CInv e s O G -> cjobs s t = None -> caller c = Some t -> jok e (yset_tr (cy s) []) O t c k s O ->
  (forall p, In p (ptrs k) -> starting s O c p) -> (forall p i b, frees c p -> cholds s O i b -> bp b = p -> In p (ptrs k)) ->
  CStep e s O G (Call c) None (set_job s t (Some (mkJob c k)) (yset_tr (cy s) [])) O.
Proof.
  intros I HN HC HJ HP HF. pose proof (ci_inv _ _ _ _ I) as S. set (s' := set_job s t (Some (mkJob c k)) (yset_tr (cy s) [])).
  assert (JT : cjobs s' t = Some (mkJob c k)) by (unfold s', set_job; cbn [cjobs]; apply same_tls). assert (JO : forall t', t' <> t -> cjobs s' t' = cjobs s t') by (intros t' N; unfold s', set_job; cbn [cjobs]; apply other_tls; exact N).
  assert (AP : forall t' j p, t' <> t -> cjobs s t' = Some j -> In p (ptrs (jk j)) -> In p (ptrs k) -> p = 0).
  { intros t' j p N Hj H1 H2. destruct (HP p H2) as [K|(_ & i & n & d & (_ & K))]; [exact K|]. exfalso. apply K. exists t', j. auto. }
  constructor.
  - constructor.
    + exact (sinv_start _ _ _ S).
    + intros t' j Hj. unfold ghost. rewrite HC. destruct (Z.eq_dec t' t) as [->|N].
      * rewrite JT in Hj. injection Hj as <-. split; [exact HC|]. exists s, O. split; [apply same_tls|]. split; [exact S|exact HJ].
      * rewrite JO in Hj by exact N. destruct (ci_job _ _ _ _ I t' j Hj) as (K1 & s0 & O0 & K2 & K3 & K4). split; [exact K1|]. exists s0, O0. split; [rewrite other_tls by exact N; exact K2|]. split; [exact K3|exact K4].
    + intros t1 t2 j1 j2 p N H1 H2 P1 P2. destruct (Z.eq_dec t1 t) as [E1|N1]; [|destruct (Z.eq_dec t2 t) as [E2|N2]].
      * subst t1. rewrite JT in H1. injection H1 as <-. rewrite JO in H2 by congruence. apply (AP t2 j2); [congruence|exact H2|exact P2|exact P1].
      * subst t2. rewrite JT in H2. injection H2 as <-. rewrite JO in H1 by exact N1. exact (AP t1 j1 p N1 H1 P1 P2).
      * rewrite JO in H1, H2 by assumption. exact (ci_apart _ _ _ _ I t1 t2 j1 j2 p N H1 H2 P1 P2).
  - reflexivity.
  - intros j b u (H & HU) NT U. split; [|split; [exact U|reflexivity]]. split; [exact H|]. intros (t' & j' & K1 & K2). destruct (Z.eq_dec t' t) as [->|N].
    + rewrite JT in K1. injection K1 as <-. destruct (HP _ K2) as [K|(K & _)]; [|exact (NT K)]. destruct (held_size _ _ _ _ _ S H) as (w & _ & _ & _ & W & _). lia.
    + rewrite JO in K1 by exact N. apply HU. exists t', j'. auto.
  - intros j b (H & HU). left. assert (HU' : ~ in_use s (bp b)).
    { intros (t' & j' & K1 & K2). apply HU. exists t', j'. split; [|exact K2]. rewrite JO; [exact K1|]. intros ->. congruence. }
    split; [split; [exact H|exact HU']|]. intros K. apply HU. exists t, (mkJob c k). split; [exact JT|]. apply (HF (bp b) j b K); [split; [exact H|exact HU']|reflexivity].
  - intros c' code r' t' os K. discriminate.
  - intros i c' r evs [].
  - left. exact (life_still (cy s) O (yset_tr (cy s) []) eq_refl).
Qed.
Lemma call_ret e s O G c code r y' : CInv e s O G -> (forall t, caller c = Some t -> cjobs s t = None) -> starts e s O c -> begin e c (yset_tr (cy s) []) = (Ret code r, y') ->
  CStep e s O G (Call c) (Some (c, code, r)) (mkCst y' (cjobs s)) O.
Proof.
  intros I HN HS E. pose proof (ci_inv _ _ _ _ I) as S. destruct (begin_ret _ _ _ _ _ _ _ S HS E) as (D & ET & EC & NF & RR & HW). constructor; cbn [cy cjobs].
  - constructor; cbn [cy cjobs].
    + exact (dn_inv _ _ _ _ _ _ _ D).
    + intros t j Hj. destruct (ci_job _ _ _ _ I t j Hj) as (K1 & s0 & O0 & K2 & K3 & K4). split; [exact K1|]. assert (NC : caller c <> Some t) by (intros K; rewrite (HN t K) in Hj; discriminate).
      exists s0, O0. split; [unfold ghost; destruct (caller c) as [t'|]; [rewrite other_tls by congruence|]; exact K2|]. split; [exact K3|].
      apply (kept_jok e (cy s) O y' O t (in_use s) S); [|exact K4|intros q Hq; exists t, j; auto]. constructor.
      * intros i b u H HB U. destruct (dn_keep _ _ _ _ _ _ _ D i b u H (NF (bp b)) U) as (H1 & H2 & H3). split; [exact H1|]. split; [exact H2|]. intros x Hx. apply (H3 x Hx). intros W.
        destruct (HW x W) as (i' & b' & u' & W1 & W2 & W3). pose proof (held_apart e (cy s) O i' i b' b u' u S (proj1 W1) H W2 U) as A.
        assert (NE : (i', b') <> (i, b)) by (intros K; injection K as -> ->; exact (proj2 W1 HB)). specialize (A NE). unfold ChainSpec.apart in A. cbn [fst snd] in A. lia.
      * apply (dn_tls _ _ _ _ _ _ _ D). exact NC.
      * rewrite EC. apply Nat.le_refl.
      * intros i _ K. unfold chain in *. rewrite EC. exact K.
      * intros i K. right. unfold is_shared, chain in *. rewrite EC. exact K.
    + exact (ci_apart _ _ _ _ I).
  - rewrite ET. reflexivity.
  - intros j b u (H & HU) _ U. destruct (dn_keep _ _ _ _ _ _ _ D j b u H (NF (bp b)) U) as (H1 & H2 & H3). split; [split; [exact H1|exact HU]|]. split; [exact H2|exact H3].
  - intros j b (H & HU). left. destruct (dn_new _ _ _ _ _ _ _ D j b H) as [(K1 & K2)|(K1 & _)]; [split; [split; [exact K1|exact HU]|exact K2]|].
    exfalso. destruct (held_size _ _ _ _ _ (dn_inv _ _ _ _ _ _ _ D) H) as (w & _ & _ & _ & W & _). destruct RR as [R|R]; rewrite R in K1; [discriminate|injection K1 as K1; lia].
  - intros c' code' r' t os _ K. discriminate.
  - rewrite ET. intros i c' r0 evs [].
  - left. rewrite ET. exact (life_still (cy s) O y' EC).
Qed.

Lemma piece_step e s O G t c k os o y' O' tr s0 O0 : CInv e s O G -> cjobs s t = Some (mkJob c k) -> G t = Some (s0, O0) -> SInv e (cy s0) O0 -> caller c = Some t ->
  Stepped e (yset_tr (cy s) []) O t k o y' O' tr -> follows e y' O' t c o s0 O0 ->
  forall r j, (o = match j with None => o | Some j => More (jk j) end) -> (forall j', j = Some j' -> jc j' = c) -> r = match o with Ret code r => Some (c, code, r) | More _ => None end -> (j = None -> exists code r, o = Ret code r) ->
  CStep e s O G (Go t os) r (set_job s t j y') O'.
Proof.
  intros I HT HG S0 HC SP F r j HO HJC HR HJN. pose proof (ci_inv _ _ _ _ I) as S. destruct SP as [P1 P2 P3 P4 P5 P6 P7 P8 P9 P10]. cbn [yset_tr ytr] in P8. rewrite app_nil_r in P8.
  set (s' := set_job s t j y').
  assert (JT : cjobs s' t = j) by (unfold s', set_job; cbn [cjobs]; apply same_tls). assert (JO : forall t', t' <> t -> cjobs s' t' = cjobs s t') by (intros t' N; unfold s', set_job; cbn [cjobs]; apply other_tls; exact N).
  assert (OJ : forall j', j = Some j' -> optrs o = ptrs (jk j')) by (intros j' ->; rewrite HO; reflexivity).
  (* a pointer of another call *)
  assert (AP : forall t' j' p, t' <> t -> cjobs s t' = Some j' -> In p (ptrs (jk j')) -> p <> 0 -> ~ In p (ptrs k) /\ ~ In p (optrs o)).
  { intros t' j' p N Hj Hp Np. assert (K : ~ In p (ptrs k)) by (intros K; exact (Np (ci_apart _ _ _ _ I t' t j' _ p N Hj HT Hp K))). split; [exact K|]. intros K1. destruct (P5 p K1 Np) as [K2|K2]; [exact (K K2)|].
    destruct (ci_job _ _ _ _ I t' j' Hj) as (_ & s1 & O1 & _ & _ & JK). destruct (ptrs_held _ _ _ _ _ _ _ _ _ JK Hp Np) as (i & n & d & H). exact (K2 i _ H eq_refl). }
  assert (LF : Life (cy s) O (cy s') O' (ytr (cy s')) \/ marks s O (Go t os) s' O').
  { destruct P7 as [L|(-> & i & kk & K1 & K2 & K3 & K4 & K5)]; [left; rewrite <- P8 in L; exact (life_tr _ _ _ _ _ L)|]. right. exists t, os, c, i, kk. split; [reflexivity|]. split; [exact HT|]. split; [exact K1|]. split; [exact K2|]. split; [exact K3|]. split; [exact K4|].
    unfold s', set_job. cbn [cy]. rewrite P8. exact K5. }
  assert (KP : forall t', t' <> t -> Kept (cy s) O y' O' t' (fun q => q = 0 \/ ~ In q (ptrs k))).
  { intros t' N. constructor.
    - intros i b u H HB U. apply P2; [exact H| |exact U]. destruct HB as [HB|HB]; [destruct (held_size _ _ _ _ _ S H) as (w & _ & _ & _ & W & _); lia|exact HB].
    - exact (P6 t' N).
    - destruct P7 as [L|(_ & i & kk & K1 & K2 & -> & _)]; [exact (l_len _ _ _ _ _ L)|]. unfold exited, mark, put_chain. cbn [ych yset_ch yset_tls yset_tr]. rewrite set_nth_len. apply Nat.le_refl.
    - intros i Hi K. destruct P7 as [L|(_ & i' & kk & K1 & K2 & -> & _)]; [exact (proj1 (l_dead _ _ _ _ _ L i Hi K))|]. unfold exited. rewrite mk_other; [exact K|]. intros ->. change (chain (cy s) i' = Some kk) in K2. congruence.
    - intros i K. destruct P7 as [L|(_ & i' & kk & K1 & K2 & -> & _)].
      + unfold is_shared in K. destruct (chain (cy s) i) as [k0|] eqn:Ek; [|discriminate]. destruct (l_live _ _ _ _ _ L i k0 Ek) as [(k' & J1 & _ & J3 & _)|(_ & _ & _ & J & _)]; [right|left; exact J]. unfold is_shared. rewrite J1, J3. exact K.
      + right. unfold is_shared, exited. destruct (Nat.eq_dec i i') as [->|Ni]; [rewrite (mk_same (yset_tls (yset_tr (cy s) []) t (Some 0%nat)) i' kk K2); reflexivity|]. rewrite mk_other by exact Ni. exact K. }
  constructor.
  - constructor.
    + exact P1.
    + intros t' j' Hj. destruct (Z.eq_dec t' t) as [->|N].
      * rewrite JT in Hj. rewrite (HJC _ Hj). rewrite Hj in HO. split; [exact HC|]. exists s0, O0. split; [exact HG|]. split; [exact S0|]. rewrite HO in F. exact F.
      * rewrite JO in Hj by exact N. destruct (ci_job _ _ _ _ I t' j' Hj) as (K1 & s1 & O1 & K2 & K3 & K4). split; [exact K1|]. exists s1, O1. split; [exact K2|]. split; [exact K3|].
        apply (kept_jok e (cy s) O y' O' t' _ S (KP t' N)); [exact K4|]. intros q Hq. destruct (Z.eq_dec q 0) as [E|Nq]; [left; exact E|right; exact (proj1 (AP t' j' q N Hj Hq Nq))].
    + intros t1 t2 j1 j2 p N H1 H2 Q1 Q2. destruct (Z.eq_dec p 0) as [E|Np]; [exact E|exfalso]. destruct (Z.eq_dec t1 t) as [E1|N1]; [|destruct (Z.eq_dec t2 t) as [E2|N2]].
      * subst t1. rewrite JT in H1. rewrite JO in H2 by congruence. apply (proj2 (AP t2 j2 p ltac:(congruence) H2 Q2 Np)). rewrite (OJ _ H1). exact Q1.
      * subst t2. rewrite JT in H2. rewrite JO in H1 by exact N1. apply (proj2 (AP t1 j1 p N1 H1 Q1 Np)). rewrite (OJ _ H2). exact Q2.
      * rewrite JO in H1, H2 by assumption. exact (Np (ci_apart _ _ _ _ I t1 t2 j1 j2 p N H1 H2 Q1 Q2)).
  - unfold s', set_job. cbn [cy]. rewrite P8. exact P9.
  - intros i b u (H & HU) _ U. assert (NK : ~ In (bp b) (ptrs k)) by (intros K; apply HU; exists t, (mkJob c k); auto). destruct (P2 i b u H NK U) as (K1 & K2 & K3).
    split; [|split; [exact K2|intros x Hx _; exact (K3 x Hx)]]. split; [exact K1|]. intros (t' & j' & J1 & J2). assert (Nb : bp b <> 0) by (destruct (held_size _ _ _ _ _ S H) as (w & _ & _ & _ & W & _); lia).
    destruct (Z.eq_dec t' t) as [->|N].
    + rewrite JT in J1. rewrite <- (OJ _ J1) in J2. destruct (P5 _ J2 Nb) as [K|K]; [exact (NK K)|exact (K i b H eq_refl)].
    + rewrite JO in J1 by exact N. apply HU. exists t', j'. auto.
  - intros i b (H & HU). assert (RT : In (bp b) (optrs o) -> exists c0 code, r = Some (c0, code, Some (bp b))).
    { intros K. destruct o as [code ro|k']; [|exfalso]. - destruct ro as [q|]; [|destruct K]. destruct K as [<-|[]]. rewrite HR. eauto.
      - destruct j as [j'|]; [|destruct (HJN eq_refl) as (? & ? & ?); discriminate]. apply HU. exists t, j'. split; [exact JT|]. rewrite <- (OJ _ eq_refl). exact K. }
    destruct (P3 i b H) as [K|K]; [|right; exact (RT K)]. destruct (in_dec Z.eq_dec (bp b) (ptrs k)) as [Q|Q]; [right; exact (RT (P4 i b H Q))|]. left. split; [|intros []]. split; [exact K|].
    intros (t' & j' & J1 & J2). destruct (Z.eq_dec t' t) as [->|N]; [rewrite HT in J1; injection J1 as <-; exact (Q J2)|]. apply HU. exists t', j'. split; [rewrite JO by exact N; exact J1|exact J2].
  - intros c' code r' t' os' K1 K2. injection K2 as <- <-. rewrite HR in K1. destruct o as [code0 r0|k']; [|discriminate]. injection K1 as <- <- <-.
    split; [exists k; exact HT|]. split; [exists s0, O0; split; [exact HG|]; split; [exact S0|exact F]|]. intros q -> Nq. assert (JN : j = None) by (destruct j; [discriminate|reflexivity]). split.
    + intros (t' & j' & J1 & J2). destruct (Z.eq_dec t' t) as [->|N]; [congruence|]. rewrite JO in J1 by exact N. apply (proj2 (AP t' j' q N J1 J2 Nq)). left. reflexivity.
    + intros i b (H & HU) E. destruct (P5 q (or_introl eq_refl) Nq) as [K|K]; [|exact (K i b H E)]. apply HU. exists t, (mkJob c k). split; [exact HT|]. rewrite E. exact K.
  - unfold s', set_job. cbn [cy]. rewrite P8. intros i c0 r0 evs K. exists t, (mkJob c k). split; [reflexivity|]. split; [exact HT|]. exact (P10 i c0 r0 evs K).
  - exact LF.
Qed.

Lemma crun_ok e s O G a : CInv e s O G -> avalid e s O a -> Runs (fun f => crun f e a s) (fun '(r, s') => exists O', CStep e s O G a r s' O').
Proof.
  intros I V. pose proof (ci_inv _ _ _ _ I) as S. destruct a as [c|t os]; cbn [crun avalid] in *.
  - destruct V as (VN & VS). destruct (begin e c (yset_tr (cy s) [])) as [[code r|k] y'] eqn:E.
    + eapply runs_ok; [intros f; reflexivity|]. exists O. exact (call_ret _ _ _ _ _ _ _ _ I VN VS E).
    + destruct (begin_more _ _ _ _ _ _ S VS E) as (-> & H1 & H2 & t & HC & HJ). rewrite HC. eapply runs_ok; [intros f; reflexivity|]. exists O. exact (call_more _ _ _ _ _ _ _ I (VN t HC) HC HJ H1 H2).
  - destruct V as (j & Hj & HG). rewrite Hj. destruct (ci_job _ _ _ _ I t j Hj) as (K1 & s0 & O0 & K2 & K3 & K4). destruct j as [c k]. cbn [jc jk] in *.
    apply (runs_bind (fun f => piece f e os t k (yset_tr (cy s) [])) (fun _ x => let '(o, y) := x in match o with Ret code r => Ok (Some (c, code, r), set_job s t None y) | More k0 => Ok (None, set_job s t (Some (mkJob c k0)) y) end) _ _
             (piece_ok e (yset_tr (cy s) []) O t c s0 O0 (sinv_start _ _ _ S) K3 os k K4 HG)).
    intros (o & y') (O' & tr & SP & F). destruct o as [code r|k'].
    + eapply runs_ok; [intros f; reflexivity|]. exists O'. apply (piece_step e s O G t c k os _ y' O' tr s0 O0 I Hj K2 K3 K1 SP F); [reflexivity|discriminate|reflexivity|intros _; eauto].
    + eapply runs_ok; [intros f; reflexivity|]. exists O'. apply (piece_step e s O G t c k os _ y' O' tr s0 O0 I Hj K2 K3 K1 SP F); [reflexivity|intros j' E; injection E as <-; reflexivity|reflexivity|discriminate].
Qed.

Lemma creach_inv e s O G : creach e s O G -> CInv e s O G.
Proof.
  induction 1 as [fuel m y W E|s O G fuel a r s' R IH V E].
  - constructor; cbn [cy cjobs]; [|intros t j K; discriminate|intros t1 t2 j1 j2 p _ K; discriminate]. apply sreach_sinv. exact (sreach_init e fuel m y W E).
  - destruct (runs_any _ _ _ _ (crun_ok e s O G a IH V) E) as (O' & C). rewrite <- (cs_obs _ _ _ _ _ _ _ _ C). exact (cs_inv _ _ _ _ _ _ _ _ C).
Qed.
Lemma creach_step_ok e s O G a fuel r s' : creach e s O G -> avalid e s O a -> crun fuel e a s = Ok (r, s') -> CStep e s O G a r s' (obs_after O (ytr (cy s'))).
Proof. intros R V E. destruct (runs_any _ _ _ _ (crun_ok e s O G a (creach_inv _ _ _ _ R) V) E) as (O' & C). pose proof (cs_obs _ _ _ _ _ _ _ _ C) as EO. rewrite EO in C. exact C. Qed.
