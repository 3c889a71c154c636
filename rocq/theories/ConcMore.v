(** Executions with several threads: the lemmas behind the property theorems. *)
From Verif Require Import Word Res Mem SizeClassModel ChainModel Wp ChainInv ChainSpec ChainStep ChainRefill ChainEv ChainProps ChainCap ChainSrc ChainPut ChainMore ChainCore ChainFuel ChainTrace ChainWalk
  RegionModel RegionSpec RegionProofs LightModel LightSpec LightProofs PosixModel PosixSpec PosixChain PosixInv PosixSrc PosixLocal PosixMid PosixCall PosixRun PosixEff PosixFun PosixPub PosixNew PosixApi PosixCopy
  PosixRealloc PosixStart PosixStep PosixMore ConcModel ConcSpec ConcInv ConcStep ConcReach.
From Coq Require Import ZArith List Bool Lia.
Import ListNotations.
Open Scope Z_scope.

(** ** The pieces of a call are the call *)
Definition retp (x : res (Z * sys)) (v : Z -> option Z) : res (Z * option Z * sys) := rbind x (fun '(r, y) => Ok (0, v r, y)).
Lemma alone_free n fuel e os t p v y : alone (4 + n) fuel e os t (KFree p v) y = rbind (p_free fuel e t p y) (fun '(_, y) => Ok (0, option_map fst v, y)).
Proof.
  unfold p_free. cbn [alone plus piece]. destruct (with_local fuel e t y) as [(l & y1)| | |]; cbn [rbind piece]; try reflexivity.
  destruct (chain_call fuel e no_os l OPurge y1) as [(r & y2)| | |]; cbn [rbind piece]; try reflexivity. destruct (p =? 0); cbn [rbind piece answer]; try reflexivity.
  destruct (lookup e p y2) as [(b & y3)| | |]; cbn [rbind piece]; try reflexivity. destruct (b =? 0); [destruct (estrict e); reflexivity|].
  destruct (find_chain e b y3) as [i| | |]; cbn [rbind piece]; try reflexivity. destruct (chain_call fuel e no_os i (if is_shared y3 i || Nat.eqb i l then OFree p else ORemote p) y3) as [(r3 & y4)| | |]; reflexivity.
Qed.
Lemma alone_alloc n fuel e os t d m a y : alone (3 + n) fuel e os t (KAlloc d m a) y =
  rbind (p_alloc fuel e os t d m y) (fun '(r, y) => match and_then r (if m =? 0 then 1 else m) a with Ret code r => Ok (code, r, y) | More k => alone n fuel e os t k y end).
Proof.
  unfold p_alloc. cbn [alone plus piece]. destruct (with_local fuel e t y) as [(l & y1)| | |]; cbn [rbind piece]; try reflexivity.
  destruct (chain_call fuel e no_os l OPurge y1) as [(r & y2)| | |]; cbn [rbind piece]; try reflexivity.
  destruct (chain_call fuel e os l (OAlloc (d (if m =? 0 then 1 else m)) (if m =? 0 then 1 else m) None) y2) as [(r2 & y3)| | |]; reflexivity.
Qed.
Lemma alone_malloc n fuel e os t d m y : alone (3 + n) fuel e os t (KAlloc d m ARet) y = ptr (p_alloc fuel e os t d m y).
Proof. rewrite alone_alloc. unfold ptr. destruct (p_alloc fuel e os t d m y) as [(r & y1)| | |]; reflexivity. Qed.
Lemma alone_inter n fuel e os t i p m y : alone (8 + n) fuel e os t (KAlloc (ehook e) m (ACopy i p m)) y = ptr (inter_chain fuel e os t i p m y).
Proof.
  change (8 + n)%nat with (3 + (5 + n))%nat. rewrite alone_alloc. unfold ptr, inter_chain, p_malloc. destruct (p_alloc fuel e os t (ehook e) m y) as [(r & y1)| | |]; cbn [rbind piece and_then]; try reflexivity.
  destruct (r =? 0).
  - cbn [rbind piece]. change (5 + n)%nat with (4 + (1 + n))%nat. rewrite alone_free. destruct (p_free fuel e t p y1) as [(r1 & y2)| | |]; reflexivity.
  - change (5 + n)%nat with (Datatypes.S (4 + n)). cbn [alone]. cbn [piece]. destruct (p_size i p y1) as [u| | |]; cbn [rbind piece]; try reflexivity.
    destruct (p_memcpy r p (if m <? u then m else u) y1) as [y2| | |]; cbn [rbind piece]; try reflexivity. change (S (S (S (S n)))) with (4 + n)%nat.
    rewrite alone_free. destruct (p_free fuel e t p y2) as [(r1 & y3)| | |]; reflexivity.
Qed.
Lemma whole_pexec fuel e c y : whole fuel e c y = pexec fuel e c y.
Proof.
  unfold whole, pexec. set (y0 := yset_tr y []). destruct c as [t n os|t p|t p n os|t a b os|t d n os|t d n os|t n os|t|t i|x v]; cbn [begin caller answers].
  - exact (alone_malloc 7 fuel e os t (ehook e) n y0).
  - change 10%nat with (4 + 6)%nat. rewrite alone_free. reflexivity.
  - unfold p_realloc. destruct (p =? 0); [exact (alone_malloc 7 fuel e os t (ehook e) n y0)|]. destruct (n =? 0).
    + change 10%nat with (4 + 6)%nat. rewrite alone_free. destruct (p_free fuel e t p y0) as [(r1 & y2)| | |]; reflexivity.
    + change 10%nat with (Datatypes.S (Datatypes.S (8 + 0))). cbn [alone]. cbn [piece]. destruct (with_local fuel e t y0) as [(l & y1)| | |]; cbn [rbind piece]; try reflexivity.
      destruct (lookup e p y1) as [(b & y2)| | |]; cbn [rbind piece]; try reflexivity. destruct (b =? 0); cbn [rbind ptr]; try reflexivity.
      destruct (find_chain e b y2) as [i| | |]; cbn [rbind piece]; try reflexivity. destruct (Nat.eqb i l || is_shared y2 i).
      * cbn [alone piece plus]. destruct (chain_call fuel e os i (ORealloc (ehook e n) p n None) y2) as [(r & y3)| | |]; reflexivity.
      * apply alone_inter.
  - change 10%nat with (3 + 7)%nat. rewrite alone_alloc. unfold p_calloc, p_malloc, ptr. destruct (p_alloc fuel e os t (ehook e) (w64 (a * b)) y0) as [(r & y1)| | |]; cbn [rbind piece and_then]; try reflexivity.
    cbn [alone piece]. destruct (p_memset r (w64 (a * b)) y1) as [y2| | |]; reflexivity.
  - unfold x_memalign. destruct (is_pow2 d); [|reflexivity]. exact (alone_malloc 7 fuel e os t (fun _ => d) n y0).
  - destruct (negb (d mod 8 =? 0) && is_pow2 d); [reflexivity|]. exact (alone_malloc 7 fuel e os t (fun _ => d) n y0).
  - unfold x_memalign. destruct (is_pow2 4096); [|reflexivity]. exact (alone_malloc 7 fuel e os t (fun _ => 4096) n y0).
  - cbn [alone piece]. unfold p_exit. destruct (ytls y0 t) as [i|]; [|reflexivity]. destruct (chain y0 i) as [k|]; [|reflexivity]. cbn [rbind piece].
    destruct (chain_call fuel e no_os i OPurge (put_chain (yset_tls y0 t (Some 0%nat)) i (Some (mkChn (kg k) true true (kst k))))) as [(r & y1)| | |]; reflexivity.
  - reflexivity.
  - reflexivity.
Qed.

(** ** Steps *)
Lemma conc_safe e s O G a : creach e s O G -> avalid e s O a ->
  (exists f0 x, forall f, (f0 <= f)%nat -> crun f e a s = Ok x) /\ forall f, crun f e a s = OutOfFuel \/ exists x, crun f e a s = Ok x.
Proof.
  intros R V. destruct (crun_ok e s O G a (creach_inv _ _ _ _ R) V) as (f0 & x & _ & H1 & H2). split; [eauto|]. intros f. destruct (H2 f) as [K|K]; [left; exact K|right; eauto].
Qed.
Lemma conc_effect e s O G a fuel r s' : creach e s O G -> avalid e s O a -> crun fuel e a s = Ok (r, s') ->
  let O' := obs_after O (ytr (cy s')) in
  (forall j b u, cholds s O j b -> ~ takes a (bp b) -> size_of (cy s) j (bp b) u ->
     cholds s' O' j b /\ size_of (cy s') j (bp b) u /\ forall x, bp b <= x < bp b + u -> ~ stores a x -> ymem (cy s') x = ymem (cy s) x) /\
  (forall j b, cholds s' O' j b -> (cholds s O j b /\ ~ takes a (bp b)) \/ exists c code, r = Some (c, code, Some (bp b))).
Proof. intros R V E O'. pose proof (creach_step_ok _ _ _ _ _ _ _ _ R V E) as C. split; [exact (cs_keep _ _ _ _ _ _ _ _ C)|exact (cs_new _ _ _ _ _ _ _ _ C)]. Qed.
Lemma conc_apart e s O G i j b b' u u' : creach e s O G -> cholds s O i b -> cholds s O j b' -> size_of (cy s) i (bp b) u -> size_of (cy s) j (bp b') u' -> (i, b) <> (j, b') ->
  apart (bp b, u) (bp b', u') /\ bn b <= u.
Proof.
  intros R (H & _) (H' & _) U U' N. pose proof (ci_inv _ _ _ _ (creach_inv _ _ _ _ R)) as S. split; [exact (held_apart e _ O i j b b' u u' S H H' U U' N)|].
  destruct (held_size _ _ _ _ _ S H) as (w & W & W1 & _). rewrite (size_eq _ _ _ _ _ U W). exact W1.
Qed.
(** The pointer freed or moved by a call in progress is a block that nobody else has. *)
Lemma conc_owned e s O G t j p : creach e s O G -> cjobs s t = Some j -> In p (ptrs (jk j)) -> p <> 0 ->
  (exists i n d, holds (cy s) O i (mkBlk p n d)) /\ forall t' j', t' <> t -> cjobs s t' = Some j' -> ~ In p (ptrs (jk j')).
Proof.
  intros R Hj Hp Np. pose proof (creach_inv _ _ _ _ R) as I. destruct (ci_job _ _ _ _ I t j Hj) as (_ & s0 & O0 & _ & _ & J). split; [exact (ptrs_held _ _ _ _ _ _ _ _ _ J Hp Np)|].
  intros t' j' N Hj' Hp'. exact (Np (ci_apart _ _ _ _ I t' t j' j p N Hj' Hj Hp' Hp)).
Qed.

(** ** Results *)
Lemma creach_ghost e s O G t s0 O0 : creach e s O G -> G t = Some (s0, O0) -> exists G0, creach e s0 O0 G0.
Proof.
  intros R. revert t s0 O0. induction R as [fuel m y W E|s O G fuel a r s' R IH V E]; intros t s0 O0 H; [discriminate|]. destruct a as [c|t' os]; cbn [ghost] in H; [|exact (IH _ _ _ H)].
  destruct (caller c) as [t'|]; [|exact (IH _ _ _ H)]. destruct (zupd_cases G t' (Some (s, O)) t) as [(_ & K)|(_ & K)]; rewrite K in H; [|exact (IH _ _ _ H)]. injection H as <- <-. exists G. exact R.
Qed.
Lemma creach_began e s O G t j : creach e s O G -> cjobs s t = Some j -> exists s0 O0, G t = Some (s0, O0) /\ starts e s0 O0 (jc j) /\ cjobs s0 t = None.
Proof.
  intros R. revert t j. induction R as [fuel m y W E|s O G fuel a r s' R IH V E]; intros t j H; [discriminate|]. destruct a as [c|t' os]; cbn [crun] in E.
  - destruct V as (VN & VS). destruct (begin e c (yset_tr (cy s) [])) as [[code rr|k] y'].
    + injection E as _ <-. cbn [cjobs] in H. destruct (IH t j H) as (s0 & O0 & K1 & K2). cbn [ghost]. exists s0, O0. split; [|exact K2]. destruct (caller c) as [t'|]; [|exact K1]. rewrite other_tls; [exact K1|].
      intros ->. rewrite (VN t' eq_refl) in H. discriminate.
    + destruct (caller c) as [t'|] eqn:HC; [|discriminate]. injection E as _ <-. unfold set_job in H. cbn [cjobs ghost] in *. rewrite HC. destruct (Z.eq_dec t t') as [->|N].
      * rewrite same_tls in H. rewrite same_tls. injection H as <-. exists s, O. split; [reflexivity|]. split; [exact VS|exact (VN t' eq_refl)].
      * rewrite other_tls in H by exact N. rewrite other_tls by exact N. exact (IH t j H).
  - destruct V as (j0 & Hj0 & _). rewrite Hj0 in E. cbn [ghost]. destruct (piece fuel e os t' (jk j0) (yset_tr (cy s) [])) as [([code rr|k] & y')| | |]; cbn [rbind] in E; try discriminate; injection E as _ <-; unfold set_job in H; cbn [cjobs] in H.
    + destruct (zupd_cases (cjobs s) t' None t) as [(_ & K)|(_ & K)]; rewrite K in H; [discriminate|]. exact (IH t j H).
    + destruct (zupd_cases (cjobs s) t' (Some (mkJob (jc j0) k)) t) as [(Et & K)|(_ & K)]; rewrite K in H; [|exact (IH t j H)]. injection H as <-. cbn [jc]. rewrite Et. exact (IH t' j0 Hj0).
Qed.
Lemma conc_result e s O G t os fuel c code r s' : creach e s O G -> avalid e s O (Go t os) -> crun fuel e (Go t os) s = Ok (Some (c, code, r), s') ->
  let O' := obs_after O (ytr (cy s')) in
  caller c = Some t /\ cjobs s' t = None /\
  (exists s0 O0 G0, G t = Some (s0, O0) /\ creach e s0 O0 G0 /\ starts e s0 O0 c /\ result e (cy s') O' t c r s0 O0) /\
  forall q, r = Some q -> q <> 0 -> (exists i b, cholds s' O' i b /\ bp b = q /\ gives c = Some (bn b)) /\ forall j b, cholds s O j b -> bp b <> q.
Proof.
  intros R V E O'. pose proof (creach_step_ok _ _ _ _ _ _ _ _ R V E) as C. destruct (cs_ret _ _ _ _ _ _ _ _ C c code r t os eq_refl eq_refl) as ((k & Hj) & (s0 & O0 & HG & S0 & RS) & HQ).
  pose proof (creach_inv _ _ _ _ R) as I. destruct (ci_job _ _ _ _ I t _ Hj) as (HC & _). split; [exact HC|]. split.
  { cbn [crun] in E. rewrite Hj in E. destruct (piece fuel e os t (jk (mkJob c k)) (yset_tr (cy s) [])) as [([code0 rr|k0] & y')| | |]; cbn [rbind] in E; try discriminate. injection E as _ _ <-. unfold set_job. cbn [cjobs]. apply same_tls. }
  split.
  { destruct (creach_began _ _ _ _ _ _ R Hj) as (s1 & O1 & HG' & ST & _). rewrite HG in HG'. injection HG' as <- <-. destruct (creach_ghost _ _ _ _ _ _ _ R HG) as (G0 & R0). exists s0, O0, G0. split; [exact HG|]. split; [exact R0|]. split; [exact ST|exact RS]. }
  intros q -> Nq. destruct (HQ q eq_refl Nq) as (Q1 & Q2). split; [|exact Q2]. destruct RS as (_ & RS). destruct (RS q eq_refl) as (K & _). destruct (K Nq) as (i & d & n & K1 & K2 & _).
  exists i, (mkBlk q n d). split; [split; [exact K1|exact Q1]|]. split; [reflexivity|exact K2].
Qed.

(** ** Exclusive access *)
Lemma conc_exclusive e s O G a fuel r s' i c v evs : creach e s O G -> avalid e s O a -> crun fuel e a s = Ok (r, s') -> In (TCall i c v evs) (ytr (cy s')) ->
  exists t, actor a = Some t /\ exclusive (cy s) t i c.
Proof. intros R V E H. destruct (cs_excl _ _ _ _ _ _ _ _ (creach_step_ok _ _ _ _ _ _ _ _ R V E) i c v evs H) as (t & j & K1 & _ & K2 & _). eauto. Qed.
Lemma enters_mine e y O t c k s0 O0 i : jok e y O t c k s0 O0 -> enters k i -> mine y t i \/ chain y i = None /\ k = KExitPurge i.
Proof.
  intros J H. destruct k as [d n a|l d n a|l d n a|r z n|j p r n|p v|l p v|l p v|j b p v|p n|l p n|j p n| |j]; cbn [enters jok] in *; try contradiction.
  - left. right. rewrite H. exact (proj1 J).
  - left. right. rewrite H. exact (proj1 J).
  - left. right. rewrite H. exact (proj1 J).
  - destruct H as (-> & Hb). left. exact (proj1 (proj2 J) Hb).
  - left. rewrite H. exact (proj1 (proj2 J)).
  - subst i. destruct J as (_ & _ & [K|K]); [right; auto|left; left; exact K].
Qed.
Lemma conc_one_inside e s O G t1 t2 j1 j2 i : creach e s O G -> t1 <> t2 -> cjobs s t1 = Some j1 -> cjobs s t2 = Some j2 -> enters (jk j1) i -> enters (jk j2) i ->
  is_shared (cy s) i = true \/ chain (cy s) i = None.
Proof.
  intros R N H1 H2 E1 E2. pose proof (creach_inv _ _ _ _ R) as I. destruct (ci_job _ _ _ _ I t1 j1 H1) as (_ & sa & Oa & _ & _ & J1). destruct (ci_job _ _ _ _ I t2 j2 H2) as (_ & sb & Ob & _ & _ & J2).
  destruct (enters_mine _ _ _ _ _ _ _ _ _ J1 E1) as [[K1|K1]|(K1 & _)]; [left; exact K1| |right; exact K1]. destruct (enters_mine _ _ _ _ _ _ _ _ _ J2 E2) as [[K2|K2]|(K2 & _)]; [left; exact K2| |right; exact K2].
  left. pose proof (ci_inv _ _ _ _ I) as S. destruct (Nat.eq_dec i 0) as [->|Ni]; [exact (egg_shared _ _ _ S)|]. exfalso. exact (N (c_uniq _ _ _ (sinv_cor _ _ _ S) t1 t2 i K1 K2 Ni)).
Qed.
(** The queue of a chain is emptied by its owner, or at its exit. *)
Lemma conc_purge e s O G a fuel r s' i v evs : creach e s O G -> avalid e s O a -> crun fuel e a s = Ok (r, s') -> In (TCall i OPurge v evs) (ytr (cy s')) ->
  exists t j, actor a = Some t /\ cjobs s t = Some j /\ (ytls (cy s) t = Some i \/ jk j = KExitPurge i).
Proof. intros R V E H. destruct (cs_excl _ _ _ _ _ _ _ _ (creach_step_ok _ _ _ _ _ _ _ _ R V E) i OPurge v evs H) as (t & j & K1 & K2 & _ & K3). exists t, j. auto. Qed.

(** ** Chains marked for destruction *)
Lemma clater_creach e s O tr s' O' G : creach e s O G -> clater e s O tr s' O' -> exists G', creach e s' O' G'.
Proof. intros R L. induction L as [|tr s1 O1 fuel a r s2 L (G1 & IH) V E]; [eauto|]. eexists. eapply creach_step; [exact IH|exact V|exact E]. Qed.
Lemma marks_other s O a s' O' i k : marks s O a s' O' -> (forall t, ytls (cy s) t <> Some i) -> chain (cy s) i = Some k -> chain (cy s') i = Some k.
Proof. intros (t & os & c & i' & k' & _ & _ & HT & Hk & -> & _) NT H. unfold exited. rewrite mk_other; [exact H|]. intros ->. exact (NT t HT). Qed.
Lemma marks_dead s O a s' O' i : marks s O a s' O' -> chain (cy s) i = None -> chain (cy s') i = None.
Proof. intros (t & os & c & i' & k' & _ & _ & HT & Hk & -> & _) H. unfold exited. rewrite mk_other; [exact H|]. congruence. Qed.
Lemma marks_len s O a s' O' : marks s O a s' O' -> length (ych (cy s')) = length (ych (cy s)).
Proof. intros (t & os & c & i' & k' & _ & _ & HT & Hk & -> & _). unfold exited, mark, put_chain. cbn [ych yset_ch yset_tls yset_tr]. apply set_nth_len. Qed.
Lemma cstep_len e s O G a r s' O' : CStep e s O G a r s' O' -> (length (ych (cy s)) <= length (ych (cy s')))%nat.
Proof. intros C. destruct (cs_life _ _ _ _ _ _ _ _ C) as [L|L]; [exact (l_len _ _ _ _ _ L)|rewrite (marks_len _ _ _ _ _ L); apply Nat.le_refl]. Qed.
Lemma cstep_dead e s O G a r s' O' i : CStep e s O G a r s' O' -> (i < length (ych (cy s)))%nat -> chain (cy s) i = None -> chain (cy s') i = None /\ idle i (ytr (cy s')).
Proof.
  intros C Hi H. destruct (cs_life _ _ _ _ _ _ _ _ C) as [L|L]; [exact (l_dead _ _ _ _ _ L i Hi H)|]. split; [exact (marks_dead _ _ _ _ _ _ L H)|].
  destruct L as (t & os & c & i' & k' & _ & _ & _ & _ & _ & _ & ->). intros x [].
Qed.
Lemma dying_unused e s O G i k : CInv e s O G -> chain (cy s) i = Some k -> i <> 0%nat -> kdes k = true -> forall t, ytls (cy s) t <> Some i.
Proof. intros I Hk Ni Kd t HT. destruct (c_tls _ _ _ (sinv_cor _ _ _ (ci_inv _ _ _ _ I)) t i HT) as (k' & K1 & K2). rewrite Hk in K1. injection K1 as <-. rewrite (K2 Ni) in Kd. discriminate. Qed.
Lemma cstep_live e s O G a r s' O' i k : CInv e s O G -> CStep e s O G a r s' O' -> chain (cy s) i = Some k -> i <> 0%nat -> kdes k = true ->
  (exists k', chain (cy s') i = Some k' /\ kg k' = kg k /\ kdes k' = true /\ (segs (oat O i) = [] <-> segs (oat O' i) = []) /\ ~ In (TDestroy i) (ytr (cy s'))) \/
  (segs (oat O i) <> [] /\ chain (cy s') i = None /\ exists t1 v t2, ytr (cy s') = t1 ++ TDestroy i :: TCall 0 (OFree (cpool (kg k))) v [] :: t2 /\ idle i t1 /\ ~ In (TDestroy i) t2).
Proof.
  intros I C Hk Ni Kd. destruct (cs_life _ _ _ _ _ _ _ _ C) as [L|L].
  - destruct (l_live _ _ _ _ _ L i k Hk) as [(k' & K1 & K2 & K3 & K4 & K5 & K6)|(_ & _ & K1 & K2 & K3)]; [left|right; auto]. exists k'. split; [exact K1|]. split; [exact K2|]. split; [congruence|]. split; [exact (K5 Kd Ni)|exact K6].
  - left. exists k. split; [exact (marks_other _ _ _ _ _ _ _ L (dying_unused _ _ _ _ _ _ I Hk Ni Kd) Hk)|]. split; [reflexivity|]. split; [exact Kd|]. destruct L as (t & os & c & i' & k' & _ & _ & _ & _ & _ & -> & ->). split; [tauto|intros []].
Qed.
Lemma conc_destroy e s O G a fuel r s' i k : creach e s O G -> avalid e s O a -> crun fuel e a s = Ok (r, s') -> chain (cy s) i = Some k -> i <> 0%nat ->
  let O' := obs_after O (ytr (cy s')) in
  (In (TDestroy i) (ytr (cy s')) <-> kdes k = true /\ segs (oat O i) <> [] /\ segs (oat O' i) = []) /\ (chain (cy s') i = None <-> In (TDestroy i) (ytr (cy s'))) /\
  (In (TDestroy i) (ytr (cy s')) -> exists t1 v t2, ytr (cy s') = t1 ++ TDestroy i :: TCall 0 (OFree (cpool (kg k))) v [] :: t2 /\ idle i t1 /\ ~ In (TDestroy i) t2).
Proof.
  intros R V E Hk Ni O'. pose proof (creach_step_ok _ _ _ _ _ _ _ _ R V E) as C. fold O' in C. pose proof (creach_inv _ _ _ _ R) as I. destruct (kdes k) eqn:Kd.
  - destruct (cstep_live _ _ _ _ _ _ _ _ _ _ I C Hk Ni Kd) as [(k' & K1 & _ & _ & K4 & K5)|(K1 & K2 & K3)].
    + split; [split; [contradiction|intros (_ & A & B); exfalso; exact (A (proj2 K4 B))]|]. split; [split; [congruence|contradiction]|contradiction].
    + assert (HI : In (TDestroy i) (ytr (cy s'))) by (destruct K3 as (t1 & v & t2 & -> & _); apply in_or_app; right; left; reflexivity).
      split; [split; [intros _; split; [reflexivity|split; [exact K1|]]|intros _; exact HI]|split; [split; [intros _; exact HI|intros _; exact K2]|intros _; exact K3]].
      rewrite (c_dead _ _ _ (sinv_cor _ _ _ (ci_inv _ _ _ _ (cs_inv _ _ _ _ _ _ _ _ C))) i K2). reflexivity.
  - assert (A : ~ In (TDestroy i) (ytr (cy s')) /\ chain (cy s') i <> None).
    { destruct (cs_life _ _ _ _ _ _ _ _ C) as [L|L].
      - destruct (l_live _ _ _ _ _ L i k Hk) as [(k' & K1 & _ & _ & _ & _ & K6)|(K & _)]; [split; [exact K6|congruence]|congruence].
      - destruct L as (t & os & c & i' & k' & _ & _ & _ & Hk' & EY & _ & ->). split; [intros []|]. rewrite EY. unfold exited. destruct (Nat.eq_dec i i') as [->|N]; [rewrite (mk_same (yset_tls (yset_tr (cy s) []) t (Some 0%nat)) i' k' Hk'); discriminate|].
        rewrite mk_other by exact N. change (chain (cy s) i <> None). congruence. }
    destruct A as (A1 & A2). split; [split; [contradiction|intros (K & _); discriminate]|]. split; [split; [contradiction|contradiction]|contradiction].
Qed.
Lemma clater_len e s O tr s' O' G : creach e s O G -> clater e s O tr s' O' -> (length (ych (cy s)) <= length (ych (cy s')))%nat.
Proof.
  intros R L. induction L as [|tr s1 O1 fuel a r s2 L IH V E]; [lia|]. destruct (clater_creach _ _ _ _ _ _ _ R L) as (G1 & R1). pose proof (cstep_len _ _ _ _ _ _ _ _ (creach_step_ok _ _ _ _ _ _ _ _ R1 V E)). lia.
Qed.
Lemma clater_dead e s O tr s' O' G i : creach e s O G -> clater e s O tr s' O' -> (i < length (ych (cy s)))%nat -> chain (cy s) i = None ->
  chain (cy s') i = None /\ idle i tr /\ forall t, ytls (cy s') t <> Some i.
Proof.
  intros R L Hi H. assert (K : chain (cy s') i = None /\ idle i tr).
  { induction L as [|tr s1 O1 fuel a r s2 L IH V E]; [split; [exact H|intros x []]|]. destruct IH as (H1 & H2). destruct (clater_creach _ _ _ _ _ _ _ R L) as (G1 & R1). pose proof (clater_len _ _ _ _ _ _ _ R L) as LL.
    destruct (cstep_dead _ _ _ _ _ _ _ _ i (creach_step_ok _ _ _ _ _ _ _ _ R1 V E)) as (K1 & K2); [lia|exact H1|]. split; [exact K1|apply idle_app; assumption]. }
  destruct K as (K1 & K2). split; [exact K1|]. split; [exact K2|]. intros t J. destruct (clater_creach _ _ _ _ _ _ _ R L) as (G' & R'). destruct (c_tls _ _ _ (sinv_cor _ _ _ (ci_inv _ _ _ _ (creach_inv _ _ _ _ R'))) t i J) as (k & J' & _). congruence.
Qed.
Lemma clater_mark e s O tr s' O' G i k : creach e s O G -> chain (cy s) i = Some k -> i <> 0%nat -> kdes k = true -> clater e s O tr s' O' ->
  (exists k', chain (cy s') i = Some k' /\ kg k' = kg k /\ kdes k' = true /\ (segs (oat O i) = [] <-> segs (oat O' i) = []) /\ ~ In (TDestroy i) tr) \/
  (segs (oat O i) <> [] /\ chain (cy s') i = None /\ segs (oat O' i) = [] /\ exists t1 r t2, tr = t1 ++ TDestroy i :: TCall 0 (OFree (cpool (kg k))) r [] :: t2 /\ idle i t1 /\ ~ In (TDestroy i) t2).
Proof.
  intros R Hk Ni Kd L. induction L as [|tr s1 O1 fuel a r s2 L IH V E].
  - left. exists k. split; [exact Hk|]. split; [reflexivity|]. split; [exact Kd|]. split; [tauto|intros []].
  - destruct (clater_creach _ _ _ _ _ _ _ R L) as (G1 & R1). pose proof (creach_step_ok _ _ _ _ _ _ _ _ R1 V E) as C. set (O2 := obs_after O1 (ytr (cy s2))) in *.
    destruct IH as [(k1 & A1 & A2 & A3 & A4 & A5)|(A1 & A2 & A3 & t1 & v & t2 & A4 & A5 & A6)].
    + destruct (cstep_live _ _ _ _ _ _ _ _ _ _ (creach_inv _ _ _ _ R1) C A1 Ni A3) as [(k2 & B1 & B2 & B3 & B4 & B5)|(B3 & B4 & t1 & v & t2 & B5 & B6 & B7)].
      * left. exists k2. split; [exact B1|]. split; [congruence|]. split; [exact B3|]. split; [rewrite A4; exact B4|]. intros J. apply in_app_iff in J as [J|J]; [exact (B5 J)|exact (A5 J)].
      * right. split; [rewrite A4; exact B3|]. split; [exact B4|]. split; [rewrite (c_dead _ _ _ (sinv_cor _ _ _ (ci_inv _ _ _ _ (cs_inv _ _ _ _ _ _ _ _ C))) i B4); reflexivity|].
        exists t1, v, (t2 ++ tr). rewrite B5, A2, <- app_assoc. split; [reflexivity|]. split; [exact B6|]. intros J. apply in_app_iff in J as [J|J]; [exact (B7 J)|exact (A5 J)].
    + right. split; [exact A1|]. destruct (cstep_dead _ _ _ _ _ _ _ _ i C) as (K1 & K2); [pose proof (clater_len _ _ _ _ _ _ _ R L); pose proof (chain_lt _ _ _ Hk); lia|exact A2|].
      split; [exact K1|]. split; [rewrite (c_dead _ _ _ (sinv_cor _ _ _ (ci_inv _ _ _ _ (cs_inv _ _ _ _ _ _ _ _ C))) i K1); reflexivity|]. exists (ytr (cy s2) ++ t1), v, t2. rewrite A4, app_assoc. split; [reflexivity|]. split; [apply idle_app; assumption|exact A6].
Qed.
Lemma conc_marked_once e s O tr s' O' G i k : creach e s O G -> chain (cy s) i = Some k -> i <> 0%nat -> kdes k = true -> segs (oat O i) <> [] -> clater e s O tr s' O' ->
  (chain (cy s') i = None <-> segs (oat O' i) = []) /\ (In (TDestroy i) tr <-> segs (oat O' i) = []) /\ (forall t, ytls (cy s') t <> Some i) /\
  (segs (oat O' i) = [] -> exists t1 r t2, tr = t1 ++ TDestroy i :: TCall 0 (OFree (cpool (kg k))) r [] :: t2 /\ idle i t1 /\ ~ In (TDestroy i) t2).
Proof.
  intros R Hk Ni Kd HS L. destruct (clater_creach _ _ _ _ _ _ _ R L) as (G' & R'). assert (TT : forall t, ytls (cy s') t <> Some i).
  { intros t J. destruct (c_tls _ _ _ (sinv_cor _ _ _ (ci_inv _ _ _ _ (creach_inv _ _ _ _ R'))) t i J) as (k' & J1 & J2). specialize (J2 Ni).
    destruct (clater_mark _ _ _ _ _ _ _ _ _ R Hk Ni Kd L) as [(k1 & A1 & _ & A3 & _)|(_ & A2 & _)]; congruence. }
  destruct (clater_mark _ _ _ _ _ _ _ _ _ R Hk Ni Kd L) as [(k1 & A1 & A2 & A3 & A4 & A5)|(A1 & A2 & A3 & A4)].
  - split; [split; [congruence|intros J; exfalso; apply HS; apply A4; exact J]|]. split; [split; [contradiction|intros J; exfalso; apply HS; apply A4; exact J]|]. split; [exact TT|]. intros J. exfalso. apply HS. apply A4. exact J.
  - split; [tauto|]. split; [split; [intros _; exact A3|]|split; [exact TT|intros _; exact A4]]. intros _. destruct A4 as (t1 & r & t2 & -> & _). apply in_or_app. right. left. reflexivity.
Qed.

(** ** A block freed too late *)
Lemma obs_pend i b tr : forall O, (forall r evs, ~ In (TCall i OPurge r evs) tr) -> In b (pend (oat O i)) -> In b (pend (oat (obs_after O tr) i)).
Proof.
  induction tr as [|x tr IH]; intros O NP H; [exact H|]. cbn [obs_after fold_right]. change (fold_right obs1 O tr) with (obs_after O tr).
  assert (H1 : In b (pend (oat (obs_after O tr) i))) by (apply IH; [intros r evs K; exact (NP r evs (or_intror K))|exact H]). set (O1 := obs_after O tr) in *.
  assert (HL : (i < length O1)%nat) by (destruct (Nat.lt_ge_cases i (length O1)) as [K|K]; [exact K|]; unfold oat in H1; rewrite nth_overflow in H1 by exact K; destruct H1).
  destruct x as [j c r evs|j|j|j]; cbn [obs1].
  - destruct (Nat.eq_dec j i) as [->|N]; [|rewrite oat_set_other by congruence; exact H1]. rewrite oat_set_same by exact HL.
    destruct c as [d n gr|p|h p n gr|bb z|x v|p| |m]; cbn [next pend]; try exact H1; [apply in_or_app; left; exact H1|]. exfalso. exact (NP r evs (or_introl eq_refl)).
  - unfold oat in *. rewrite app_nth1 by exact HL. exact H1.
  - exact H1.
  - exact H1.
Qed.
Definition no_exit_left (s : cst) (i : nat) : Prop := forall t j, cjobs s t = Some j -> jk j <> KExitPurge i.
Lemma strand_step e s O G a fuel r s' i k b : creach e s O G -> avalid e s O a -> crun fuel e a s = Ok (r, s') -> chain (cy s) i = Some k -> i <> 0%nat -> kdes k = true ->
  In b (pend (oat O i)) -> no_exit_left s i ->
  (exists k', chain (cy s') i = Some k' /\ kdes k' = true) /\ In b (pend (oat (obs_after O (ytr (cy s'))) i)) /\ no_exit_left s' i /\ ~ In (TDestroy i) (ytr (cy s')).
Proof.
  intros R V E Hk Ni Kd Hb NE. pose proof (creach_step_ok _ _ _ _ _ _ _ _ R V E) as C. pose proof (creach_inv _ _ _ _ R) as I. pose proof (dying_unused _ _ _ _ _ _ I Hk Ni Kd) as NT.
  assert (H1 : In b (pend (oat (obs_after O (ytr (cy s'))) i))).
  { apply obs_pend; [|exact Hb]. intros v evs K. destruct (conc_purge _ _ _ _ _ _ _ _ _ _ _ R V E K) as (t & j & _ & Hj & [J|J]); [exact (NT t J)|exact (NE t j Hj J)]. }
  assert (ALIVE : exists k', chain (cy s') i = Some k' /\ kdes k' = true /\ ~ In (TDestroy i) (ytr (cy s'))).
  { destruct (cstep_live _ _ _ _ _ _ _ _ _ _ I C Hk Ni Kd) as [(k' & K1 & _ & K3 & _ & K5)|(_ & K2 & _)]; [eauto|]. exfalso.
    rewrite (c_dead _ _ _ (sinv_cor _ _ _ (ci_inv _ _ _ _ (cs_inv _ _ _ _ _ _ _ _ C))) i K2) in H1. destruct H1. }
  destruct ALIVE as (k' & K1 & K2 & K3). split; [eauto|]. split; [exact H1|]. split; [|exact K3].
  intros t j Hj HE. destruct a as [c|t' os]; cbn [crun] in E.
  - destruct V as (VN & VS). destruct (begin e c (yset_tr (cy s) [])) as [[code rr|k0] y'] eqn:EB.
    + injection E as _ <-. exact (NE t j Hj HE).
    + destruct (caller c) as [t'|] eqn:HC; [|discriminate]. injection E as _ <-. unfold set_job in Hj; cbn [cjobs] in Hj. destruct (zupd_cases (cjobs s) t' (Some (mkJob c k0)) t) as [(_ & K)|(_ & K)]; rewrite K in Hj; [|exact (NE t j Hj HE)].
      injection Hj as <-. cbn [jk] in HE. subst k0. clear -EB. destruct c as [t n os|t p|t p n os|t a b os|t d n os|t d n os|t n os|t|t i0|x v]; cbn [begin] in EB; try discriminate.
      * destruct (p =? 0); [discriminate|]. destruct (n =? 0); discriminate.
      * destruct (is_pow2 d); discriminate.
      * destruct (negb (d mod 8 =? 0) && is_pow2 d); discriminate.
  - destruct V as (j0 & Hj0 & _). rewrite Hj0 in E. destruct (piece fuel e os t' (jk j0) (yset_tr (cy s) [])) as [([code rr|k0] & y')| | |] eqn:EP; cbn [rbind] in E; try discriminate; injection E as _ <-; unfold set_job in Hj; cbn [cjobs] in Hj.
    + destruct (zupd_cases (cjobs s) t' None t) as [(_ & K)|(_ & K)]; rewrite K in Hj; [discriminate|exact (NE t j Hj HE)].
    + destruct (zupd_cases (cjobs s) t' (Some (mkJob (jc j0) k0)) t) as [(_ & K)|(_ & K)]; rewrite K in Hj; [|exact (NE t j Hj HE)]. injection Hj as <-. cbn [jk] in HE. subst k0.
      assert (EX : ytls (cy s) t' = Some i); [|exact (NT t' EX)]. clear -EP.
      destruct (jk j0) as [d n a|l d n a|l d n a|r z n|j p r n|p v|l p v|l p v|j b p v|p n|l p n|j p n| |j]; cbn [piece] in EP.
      * destruct (with_local fuel e t' (yset_tr (cy s) [])) as [(l & y1)| | |]; discriminate.
      * destruct (chain_call fuel e no_os l OPurge (yset_tr (cy s) [])) as [(v & y1)| | |]; discriminate.
      * match type of EP with rbind ?x _ = _ => destruct x as [(v & y1)| | |] end; cbn [rbind] in EP; try discriminate. destruct a as [|z|i0 p m]; cbn [and_then] in EP; try discriminate. destruct (v =? 0); discriminate.
      * match type of EP with rbind ?x _ = _ => destruct x as [y1| | |] end; discriminate.
      * destruct (p_size j p (yset_tr (cy s) [])) as [u| | |]; cbn [rbind] in EP; try discriminate. match type of EP with rbind ?x _ = _ => destruct x as [y1| | |] end; discriminate.
      * destruct (with_local fuel e t' (yset_tr (cy s) [])) as [(l & y1)| | |]; discriminate.
      * destruct (chain_call fuel e no_os l OPurge (yset_tr (cy s) [])) as [(v0 & y1)| | |]; discriminate.
      * destruct (p =? 0); [discriminate|]. destruct (lookup e p (yset_tr (cy s) [])) as [(b & y1)| | |]; cbn [rbind] in EP; try discriminate. destruct (b =? 0); [destruct (estrict e); discriminate|].
        destruct (find_chain e b y1) as [i0| | |]; cbn [rbind] in EP; discriminate.
      * match type of EP with rbind ?x _ = _ => destruct x as [(v0 & y1)| | |] end; discriminate.
      * destruct (with_local fuel e t' (yset_tr (cy s) [])) as [(l & y1)| | |]; discriminate.
      * destruct (lookup e p (yset_tr (cy s) [])) as [(b & y1)| | |]; cbn [rbind] in EP; try discriminate. destruct (b =? 0); [discriminate|].
        destruct (find_chain e b y1) as [i0| | |]; cbn [rbind] in EP; try discriminate. destruct (Nat.eqb i0 l || is_shared y1 i0); discriminate.
      * match type of EP with rbind ?x _ = _ => destruct x as [(v0 & y1)| | |] end; discriminate.
      * change (ytls (yset_tr (cy s) []) t') with (ytls (cy s) t') in EP. destruct (ytls (cy s) t') as [i0|]; [|discriminate]. destruct (chain (yset_tr (cy s) []) i0); [|discriminate]. injection EP as -> _. reflexivity.
      * match type of EP with rbind ?x _ = _ => destruct x as [(v0 & y1)| | |] end; discriminate.
Qed.
Lemma stranded e s O tr s' O' G i k b : creach e s O G -> chain (cy s) i = Some k -> i <> 0%nat -> kdes k = true -> In b (pend (oat O i)) -> no_exit_left s i -> clater e s O tr s' O' ->
  (exists k', chain (cy s') i = Some k' /\ kdes k' = true) /\ In b (pend (oat O' i)) /\ ~ In (TDestroy i) tr.
Proof.
  intros R Hk Ni Kd Hb NE L.
  assert (A : (exists k', chain (cy s') i = Some k' /\ kdes k' = true) /\ In b (pend (oat O' i)) /\ no_exit_left s' i /\ ~ In (TDestroy i) tr).
  { induction L as [|tr s1 O1 fuel a r s2 L IH V E]; [split; [eauto|]; split; [exact Hb|split; [exact NE|intros []]]|]. destruct IH as ((k1 & K1 & K2) & K3 & K4 & K5). destruct (clater_creach _ _ _ _ _ _ _ R L) as (G1 & R1).
    destruct (strand_step _ _ _ _ _ _ _ _ _ _ _ R1 V E K1 Ni K2 K3 K4) as (J1 & J2 & J3 & J4). split; [exact J1|]. split; [exact J2|]. split; [exact J3|]. intros J. apply in_app_iff in J as [J|J]; [exact (J4 J)|exact (K5 J)]. }
  destruct A as (A1 & A2 & _ & A3). auto.
Qed.
Lemma purge_gone fuel e os s t i : option_map jk (cjobs s t) = Some (KExitPurge i) -> chain (cy s) i = None -> crun fuel e (Go t os) s = UB.
Proof.
  intros E E2. cbn [crun]. destruct (cjobs s t) as [j|]; [|discriminate]. injection E as E. rewrite E. cbn [piece]. unfold chain_call. change (chain (yset_tr (cy s) []) i) with (chain (cy s) i). rewrite E2. reflexivity.
Qed.
