(** Proofs about the life of persistent memory pools (statements in PropPool.v). *)
From Verif Require Import Word Res PmemModel PmemSpec PmemProofs PoolModel PoolSpec.
From Coq Require Import ZArith List Bool Lia Permutation.
Import ListNotations.
Open Scope Z_scope.

(** ** Lists *)
Lemma in_drop x y l : In y (drop x l) <-> In y l /\ y <> x.
Proof. unfold drop. rewrite filter_In, negb_true_iff, Z.eqb_neq. reflexivity. Qed.
Lemma drop_out x l : ~ In x l -> drop x l = l.
Proof.
  induction l as [|y l IH]; intros H; [reflexivity|]. unfold drop in *. cbn [filter]. destruct (Z.eqb_spec y x) as [E|E].
  - exfalso. apply H. left. exact E.
  - cbn [negb]. f_equal. apply IH. intros K. apply H. right. exact K.
Qed.
Lemma drop_head x l : ~ In x l -> drop x (x :: l) = l.
Proof. intros H. unfold drop. cbn [filter]. rewrite Z.eqb_refl. exact (drop_out x l H). Qed.
Lemma drop_nodup x l : NoDup l -> NoDup (drop x l).
Proof. intros H. apply NoDup_filter. exact H. Qed.
Lemma drop_perm x l m : NoDup l -> Permutation l (x :: m) -> Permutation (drop x l) m.
Proof.
  intros N H. assert (Nx : NoDup (x :: m)) by (exact (Permutation_NoDup H N)). apply NoDup_Permutation; [exact (drop_nodup x l N)|inversion Nx; assumption|].
  intros y. rewrite in_drop. split.
  - intros (H1 & H2). apply (Permutation_in _ H) in H1 as [H1|H1]; [congruence|exact H1].
  - intros H1. split; [apply (Permutation_in _ (Permutation_sym H)); right; exact H1|]. intros ->. inversion Nx. contradiction.
Qed.

(** ** One creation *)
Definition same_but (d : Z) (f g : Z -> pdesc) : Prop := forall x, x <> d -> f x = g x.
Lemma roundup_mult k x v : 0 <= k -> roundup k x = Ok v -> v mod 2 ^ k = 0.
Proof.
  intros K. unfold roundup. destruct (_ <? W64) eqn:E; [|discriminate]. intros H. injection H as <-. apply Z_mod_mult.
Qed.
Lemma f32_pos x : 0 <= x -> 0 <= f32 x.
Proof.
  intros H. unfold f32. destruct (Z.log2 x - 23 <=? 0) eqn:E; [exact H|].
  apply Z.mul_nonneg_nonneg; [|apply Z.pow_nonneg; lia]. assert (0 <= x / 2 ^ (Z.log2 x - 23)) by (apply Z.div_pos; [exact H|apply Z.pow_pos_nonneg; lia]).
  destruct (_ || _); lia.
Qed.
Lemma roundup_pos k x v : 0 <= k -> 0 <= x -> roundup k x = Ok v -> 0 <= v.
Proof.
  intros K Hx. unfold roundup. destruct (_ <? W64); [|discriminate]. intros H. injection H as <-. assert (0 < 2 ^ k) by (apply Z.pow_pos_nonneg; lia).
  pose proof (f32_pos x Hx). apply Z.mul_nonneg_nonneg; [|lia]. apply Z.div_pos; lia.
Qed.

Inductive made (k : Z) (a : answers) (size : Z) (w : world) : Z -> Z -> world -> Prop :=
| made_pool sz f : opened a -> roundup k size = Ok sz -> 0 < sz -> same_but (a_mem a) f (wdesc w) -> f (a_mem a) = mkPd 0 sz (a_map a) (a_map a) ->
    a_mem a <> 0 -> made k a size w (a_mem a) sz
      (mkWo (a_mem a :: wheap w) f (drop (a_fd a) (a_fd a :: wfd w)) (if a_map a =? MAP_FAILED then wpage w else map_pages k (a_map a) sz (wpage w)))
| made_device sz f : device a -> same_but (a_mem a) f (wdesc w) -> made k a size w 0 sz (mkWo (drop (a_mem a) (a_mem a :: wheap w)) f (wfd w) (wpage w))
| made_open sz f : opened a -> same_but (a_mem a) f (wdesc w) -> made k a size w 0 sz (mkWo (a_mem a :: wheap w) f (a_fd a :: wfd w) (wpage w))
| made_none sz f : ~ device a -> ~ opened a -> same_but (a_mem a) f (wdesc w) -> made k a size w 0 sz (mkWo (a_mem a :: wheap w) f (wfd w) (wpage w)).

Lemma create_made k a size w d sz w' : 0 <= k -> 0 <= size -> a_map a <> 0 -> pool_create k a size w = Ok (d, sz, w') -> made k a size w d sz w'.
Proof.
  intros K Hs Hm. unfold pool_create. destruct (Z.eqb_spec (a_mem a) 0) as [E0|E0]; [discriminate|]. unfold file_type.
  set (f0 := fun x => if x =? a_mem a then mkPd 0 0 0 0 else wdesc w x). assert (S0 : same_but (a_mem a) f0 (wdesc w)).
  { intros x Hx. unfold f0. destruct (Z.eqb_spec x (a_mem a)); [contradiction|reflexivity]. }
  destruct (a_access a) eqn:EA; cbn [negb rbind].
  2:{ intros H. injection H as <- <- <-. apply made_none; [intros (X & _); congruence|intros (X & _); congruence|exact S0]. }
  destruct (a_kind a) eqn:EK; cbn [rbind].
  - destruct (a_real a) eqn:ER.
    + destruct (roundup k size) as [v| | |] eqn:R; cbn [rbind]; try discriminate. intros H. injection H as <- <- <-.
      apply made_device; [split; [exact EA|split; [exact EK|exact ER]]|exact S0].
    + intros H. injection H as <- <- <-. apply made_none; [intros (_ & _ & X); congruence|intros (_ & X & _); congruence|exact S0].
  - destruct (roundup k size) as [v| | |] eqn:R; cbn [rbind]; try discriminate. unfold on_directory.
    destruct (Z.ltb_spec (a_fd a) 0) as [EF|EF].
    + change (-1 <? 0) with true. cbv iota. unfold advise. change (-1 <? 0) with true. cbv iota. change (negb (9 =? 0)) with true. cbv iota.
      intros H. injection H as <- <- <-. apply made_none; [intros (_ & X & _); congruence|intros (_ & _ & X); lia|exact S0].
    + assert (OP : opened a) by (split; [exact EA|split; [exact EK|exact EF]]). assert (EF' : (a_fd a <? 0) = false) by lia. rewrite EF'. unfold advise. rewrite EF'.
      cbn [wheap wdesc wfd wpage]. destruct (Z.eqb_spec (a_adv a) 0) as [EV|EV]; cbn [negb].
      2:{ intros H. injection H as <- <- <-. apply made_open; [exact OP|exact S0]. }
      destruct (fallocate (a_fd a) v a =? 0) eqn:EL; cbn [negb].
      2:{ intros H. injection H as <- <- <-. apply made_open; [exact OP|exact S0]. }
      destruct (Z.eqb_spec (a_map a) 0) as [EM|EM]; [contradiction|]. rewrite orb_false_r. intros H. injection H as <- <- <-.
      apply (made_pool k a size w v (fun x => if x =? a_mem a then mkPd 0 v (a_map a) (a_map a) else f0 x)); [exact OP|exact R| | |rewrite Z.eqb_refl; reflexivity|exact E0].
      * apply Z.eqb_eq in EL. unfold fallocate in EL. rewrite EF' in EL. pose proof (roundup_pos k size v K Hs R). destruct (Z.eqb_spec v 0); cbn [orb] in EL; [discriminate|lia].
      * intros x Hx. destruct (Z.eqb_spec x (a_mem a)); [contradiction|]. exact (S0 x Hx).
  - intros H. injection H as <- <- <-. apply made_none; [intros (_ & X & _); congruence|intros (_ & X & _); congruence|exact S0].
  - discriminate.
Qed.

(** ** Pages *)
Lemma page_div k b x n : 0 <= k -> b mod 2 ^ k = 0 -> n mod 2 ^ k = 0 -> ((b / 2 ^ k <=? x) && (x <? b / 2 ^ k + n / 2 ^ k) = true <-> b <= x * 2 ^ k < b + n).
Proof.
  intros K Hb Hn. assert (P : 0 < 2 ^ k) by (apply Z.pow_pos_nonneg; lia). rewrite andb_true_iff, Z.leb_le, Z.ltb_lt.
  pose proof (Z.div_mod b (2 ^ k)) as D1. pose proof (Z.div_mod n (2 ^ k)) as D2. rewrite Hb in D1. rewrite Hn in D2.
  set (u := b / 2 ^ k) in *. set (v := n / 2 ^ k) in *. set (q := 2 ^ k) in *. clearbody u v q. split; intros H; nia.
Qed.
Lemma failed_odd k : 1 <= k <= 30 -> MAP_FAILED mod 2 ^ k <> 0.
Proof.
  intros K. assert (P : 0 < 2 ^ k) by (apply Z.pow_pos_nonneg; lia). assert (Q : 1 < 2 ^ k) by (apply Z.pow_gt_1; lia).
  assert (E : MAP_FAILED = 2 ^ (64 - k) * 2 ^ k - 1). { rewrite <- Z.pow_add_r by lia. replace (64 - k + k) with 64 by lia. reflexivity. }
  rewrite E. set (q := 2 ^ k) in *. set (u := 2 ^ (64 - k)). clearbody q u. replace (u * q - 1) with (q - 1 + (u - 1) * q) by ring. rewrite Z_mod_plus_full.
  rewrite Z.mod_small by lia. lia.
Qed.
Lemma ceil_same k n s : 0 <= k -> s mod 2 ^ k = 0 -> s - 2 ^ k < n <= s -> (n + 2 ^ k - 1) / 2 ^ k = s / 2 ^ k.
Proof.
  intros K Hs Hn. assert (P : 0 < 2 ^ k) by (apply Z.pow_pos_nonneg; lia). pose proof (Z.div_mod s (2 ^ k)) as D. rewrite Hs in D.
  set (q := 2 ^ k) in *. set (u := s / q) in *. clearbody u q. symmetry. apply (Z.div_unique (n + q - 1) q u (n + q - 1 - q * u)); [left; lia|lia].
Qed.

(** ** The ledger *)
Definition wf_pool (k : Z) (w : world) (p : pool) : Prop :=
  pstart (wdesc w (pl_desc p)) = pl_base p /\ pl_size p mod 2 ^ k = 0 /\ 0 < pl_size p /\ (pl_base p = MAP_FAILED \/ pl_base p mod 2 ^ k = 0) /\ pl_desc p <> 0.
Record LI (k : Z) (w : world) (P : list pool) (L F : list Z) : Prop := mkLI {
  li_heap : Permutation (wheap w) (map pl_desc P ++ L); li_nd : NoDup (wheap w); li_fd : Permutation (wfd w) F; li_fnd : NoDup (wfd w);
  li_wf : forall p, In p P -> wf_pool k w p;
  li_page : forall x, wpage w x = true <-> exists p, In p P /\ covers k p x;
  li_apart : forall p q x, In p P -> In q P -> pl_desc p <> pl_desc q -> covers k p x -> ~ covers k q x }.

Lemma wf_other k w w' p d : wf_pool k w p -> pl_desc p <> d -> same_but d (wdesc w') (wdesc w) -> wf_pool k w' p.
Proof. intros (H1 & H2) N S. split; [rewrite (S _ N); exact H1|exact H2]. Qed.
Lemma LI_keep k w P L F d f L' F' fds : LI k w P L F -> 0 < d -> ~ In d (wheap w) -> same_but d f (wdesc w) -> L' = d :: L -> Permutation fds F' -> NoDup fds ->
  LI k (mkWo (d :: wheap w) f fds (wpage w)) P L' F'.
Proof.
  intros I D N S -> HF HN. constructor; cbn [wheap wdesc wfd wpage].
  - eapply perm_trans; [apply perm_skip; exact (li_heap _ _ _ _ _ I)|]. apply Permutation_middle.
  - constructor; [exact N|exact (li_nd _ _ _ _ _ I)].
  - exact HF.
  - exact HN.
  - intros p Hp. apply (wf_other k w _ p d (li_wf _ _ _ _ _ I p Hp)); [|exact S]. intros E. apply N.
    apply (Permutation_in _ (Permutation_sym (li_heap _ _ _ _ _ I))). apply in_or_app. left. rewrite <- E. apply in_map. exact Hp.
  - exact (li_page _ _ _ _ _ I).
  - exact (li_apart _ _ _ _ _ I).
Qed.
Lemma in_heap k w P L F p : LI k w P L F -> In p P -> In (pl_desc p) (wheap w).
Proof. intros I Hp. apply (Permutation_in _ (Permutation_sym (li_heap _ _ _ _ _ I))). apply in_or_app. left. apply in_map. exact Hp. Qed.
Lemma same_self d f : same_but d f f.
Proof. intros x _. reflexivity. Qed.

Lemma LI_create k w P L F a size d sz w' : 1 <= k <= 30 -> LI k w P L F -> 0 <= size < 2 ^ 64 -> sys_ok k size w a -> pool_create k a size w = Ok (d, sz, w') -> d <> 0 ->
  LI k w' (mkPool d (a_map a) sz :: P) L F.
Proof.
  intros K I Hs (A1 & A2 & A3 & A4 & A5) E D. assert (M0 : a_map a <> 0) by (destruct A5 as [->|(? & _)]; [discriminate|lia]).
  destruct (create_made k a size w d sz w' ltac:(lia) ltac:(lia) M0 E) as [sz f OP R S0 S1 S2 S3|sz f _ _|sz f _ _|sz f _ _ _]; try (exfalso; apply D; reflexivity).
  assert (K0 : 0 <= k) by lia.
  pose proof (roundup_mult k size sz K0 R) as SZ. assert (FD : ~ In (a_fd a) (wfd w)). { destruct OP as (_ & _ & O3). destruct A4 as [A4|(_ & A4)]; [lia|exact A4]. }
  rewrite (drop_head _ _ FD).
  assert (OTH : forall p, In p P -> pl_desc p <> a_mem a). { intros p Hp X. apply A2. rewrite <- X. exact (in_heap _ _ _ _ _ _ I Hp). }
  assert (PG : forall x, (if a_map a =? MAP_FAILED then wpage w else map_pages k (a_map a) sz (wpage w)) x = true <->
                covers k (mkPool (a_mem a) (a_map a) sz) x \/ wpage w x = true).
  { intros x. unfold covers. cbn [pl_base pl_size]. destruct (Z.eqb_spec (a_map a) MAP_FAILED) as [EM|EM]; [split; [right; assumption|intros [(X & _)|X]; [contradiction|exact X]]|].
    destruct A5 as [A5|(A5 & A6 & _)]; [contradiction|]. unfold map_pages. pose proof (page_div k (a_map a) x sz K0 A6 SZ) as PD. destruct (_ && _) eqn:B.
    - split; [intros _; left; split; [exact EM|apply PD; reflexivity]|reflexivity].
    - split; [right; assumption|]. intros [(_ & X)|X]; [|exact X]. apply PD in X. discriminate. }
  assert (NEW : forall x, covers k (mkPool (a_mem a) (a_map a) sz) x -> wpage w x = false).
  { intros x (C1 & C2). cbn [pl_base pl_size] in C1, C2. destruct A5 as [A5|(_ & _ & A5)]; [contradiction|]. exact (A5 sz x R C2). }
  constructor; cbn [wheap wdesc wfd wpage].
  - cbn [map app pl_desc]. apply perm_skip. exact (li_heap _ _ _ _ _ I).
  - constructor; [exact A2|exact (li_nd _ _ _ _ _ I)].
  - exact (li_fd _ _ _ _ _ I).
  - exact (li_fnd _ _ _ _ _ I).
  - intros p [<-|Hp].
    + unfold wf_pool. cbn [pl_desc pl_base pl_size wdesc]. rewrite S2. cbn [pstart]. split; [reflexivity|]. split; [exact SZ|]. split; [exact S0|]. split; [|exact S3].
      destruct A5 as [A5|(_ & A5 & _)]; [left; exact A5|right; exact A5].
    + apply (wf_other k w _ p (a_mem a) (li_wf _ _ _ _ _ I p Hp)); [exact (OTH p Hp)|exact S1].
  - intros x. rewrite (PG x), (li_page _ _ _ _ _ I x). split.
    + intros [C|(p & Hp & C)]; [eexists; split; [left; reflexivity|exact C]|exists p; split; [right; exact Hp|exact C]].
    + intros (p & [<-|Hp] & C); [left; exact C|right; exists p; split; [exact Hp|exact C]].
  - intros p q x [<-|Hp] [<-|Hq] N C1 C2.
    + apply N. reflexivity.
    + pose proof (NEW x C1) as X. assert (Y : wpage w x = true) by (apply (li_page _ _ _ _ _ I x); exists q; split; [exact Hq|exact C2]). congruence.
    + pose proof (NEW x C2) as X. assert (Y : wpage w x = true) by (apply (li_page _ _ _ _ _ I x); exists p; split; [exact Hp|exact C1]). congruence.
    + exact (li_apart _ _ _ _ _ I p q x Hp Hq N C1 C2).
Qed.

Lemma LI_malloc k w P L F p n r w' : LI k w P L F -> In p P -> pool_malloc (pl_desc p) n w = Ok (r, w') -> LI k w' P L F.
Proof.
  intros I Hp. unfold pool_malloc. destruct (negb _); [discriminate|]. destruct (pmalloc n (wdesc w (pl_desc p))) as [r' x] eqn:E. intros H. injection H as <- <-.
  assert (X : pstart x = pstart (wdesc w (pl_desc p))). { unfold pmalloc in E. destruct (_ <=? _); injection E as <- <-; reflexivity. }
  constructor; cbn [wheap wdesc wfd wpage].
  - exact (li_heap _ _ _ _ _ I).
  - exact (li_nd _ _ _ _ _ I).
  - exact (li_fd _ _ _ _ _ I).
  - exact (li_fnd _ _ _ _ _ I).
  - intros q Hq. destruct (li_wf _ _ _ _ _ I q Hq) as (H1 & H2). split; [|exact H2]. cbn [wdesc]. destruct (Z.eqb_spec (pl_desc q) (pl_desc p)) as [Y|Y]; [|exact H1].
    rewrite X, <- Y. exact H1.
  - exact (li_page _ _ _ _ _ I).
  - exact (li_apart _ _ _ _ _ I).
Qed.

Lemma LI_destroy k w P1 p P2 L F n r w' : 1 <= k <= 30 -> LI k w (P1 ++ p :: P2) L F -> pl_size p - 2 ^ k < n <= pl_size p -> pool_destroy k (pl_desc p) n w = Ok (r, w') ->
  LI k w' (P1 ++ P2) L F /\ (pl_base p <> MAP_FAILED -> r = 0).
Proof.
  intros K I Hn. unfold pool_destroy. destruct (negb _); [discriminate|]. assert (Hp : In p (P1 ++ p :: P2)) by (apply in_or_app; right; left; reflexivity).
  destruct (li_wf _ _ _ _ _ I p Hp) as (W1 & W2 & W3 & W4 & W5). rewrite W1.
  assert (SUB : forall q, In q (P1 ++ P2) -> In q (P1 ++ p :: P2)). { intros q Hq. apply in_app_or in Hq as [Hq|Hq]; apply in_or_app; [left|right; right]; exact Hq. }
  assert (HP : Permutation (wheap w) (pl_desc p :: map pl_desc (P1 ++ P2) ++ L)).
  { eapply perm_trans; [exact (li_heap _ _ _ _ _ I)|]. rewrite !map_app. cbn [map]. rewrite <- !app_assoc. cbn [app]. apply Permutation_sym, Permutation_middle. }
  assert (DIS : forall q, In q (P1 ++ P2) -> pl_desc q <> pl_desc p).
  { intros q Hq X. pose proof (Permutation_NoDup HP (li_nd _ _ _ _ _ I)) as N. inversion N as [|? ? N1 N2]. apply N1. apply in_or_app. left. rewrite <- X. apply in_map. exact Hq. }
  assert (P0 : 0 < 2 ^ k) by (apply Z.pow_pos_nonneg; lia). assert (K0 : 0 <= k) by lia.
  assert (SN : pl_size p >= 2 ^ k). { pose proof (Z.div_mod (pl_size p) (2 ^ k) ltac:(lia)) as D. rewrite W2 in D. set (q := 2 ^ k) in *. set (u := pl_size p / q) in *. clearbody u q.
    clear - D W3 P0. assert (1 <= u) by nia. nia. }
  unfold unmap_pages. assert (N0 : (0 <? n) = true) by lia. rewrite N0, andb_true_r.
  assert (REST : forall g, (forall x, g x = true <-> exists q, In q (P1 ++ P2) /\ covers k q x) ->
    LI k (mkWo (drop (pl_desc p) (wheap w)) (wdesc w) (wfd w) g) (P1 ++ P2) L F).
  { intros g G. constructor; cbn [wheap wdesc wfd wpage].
    - exact (drop_perm _ _ _ (li_nd _ _ _ _ _ I) HP).
    - exact (drop_nodup _ _ (li_nd _ _ _ _ _ I)).
    - exact (li_fd _ _ _ _ _ I).
    - exact (li_fnd _ _ _ _ _ I).
    - intros q Hq. apply (wf_other k w _ q (pl_desc p) (li_wf _ _ _ _ _ I q (SUB q Hq)) (DIS q Hq)). apply same_self.
    - exact G.
    - intros u v x Hu Hv. exact (li_apart _ _ _ _ _ I u v x (SUB u Hu) (SUB v Hv)). }
  destruct (Z.eqb_spec (pl_base p mod 2 ^ k) 0) as [EB|EB].
  - intros H. injection H as <- <-. split; [|reflexivity]. apply REST. intros x. rewrite (ceil_same k n (pl_size p) K0 W2 Hn).
    pose proof (page_div k (pl_base p) x (pl_size p) K0 EB W2) as PD. assert (NF : pl_base p <> MAP_FAILED) by (intros X; rewrite X in EB; exact (failed_odd k K EB)).
    destruct (_ && _) eqn:B.
    + split; [discriminate|]. intros (q & Hq & C). exfalso. apply (li_apart _ _ _ _ _ I q p x (SUB q Hq) Hp (DIS q Hq) C). split; [exact NF|apply PD; reflexivity].
    + rewrite (li_page _ _ _ _ _ I x). split; [|intros (q & Hq & C); exists q; split; [exact (SUB q Hq)|exact C]]. intros (q & Hq & C). exists q. split; [|exact C].
      apply in_app_or in Hq as [Hq|[<-|Hq]]; [apply in_or_app; left; exact Hq| |apply in_or_app; right; exact Hq].
      exfalso. destruct C as (_ & C). apply PD in C. discriminate.
  - intros H. injection H as <- <-. assert (EF : pl_base p = MAP_FAILED) by (destruct W4 as [W4|W4]; [exact W4|contradiction]). split; [|contradiction].
    apply REST. intros x. rewrite (li_page _ _ _ _ _ I x). split; [|intros (q & Hq & C); exists q; split; [exact (SUB q Hq)|exact C]].
    intros (q & Hq & C). exists q. split; [|exact C]. apply in_app_or in Hq as [Hq|[<-|Hq]]; [apply in_or_app; left; exact Hq| |apply in_or_app; right; exact Hq].
    destruct C as (C & _). contradiction.
Qed.

Lemma LI_step k w P L F w' P' L' F' : 1 <= k <= 30 -> LI k w P L F -> lstep k w P L F w' P' L' F' -> LI k w' P' L' F'.
Proof.
  intros K I H. destruct H as [w P L F a size d sz w' Hs A E D|w P L F a size sz w' Hs A E D|w P L F a size sz w' Hs A E D|w P L F a size sz w' Hs A E D1 D2|w P L F p n r w' Hp Hn E|w P1 p P2 L F n r w' Hn E].
  - exact (LI_create k w P L F a size d sz w' K I Hs A E D).
  - pose proof A as (A1 & A2 & A3 & A4 & A5). assert (M0 : a_map a <> 0) by (destruct A5 as [->|(? & _)]; [discriminate|lia]).
    assert (NO : ~ opened a) by (destruct D as (_ & D & _); intros (_ & O2 & _); congruence). clear A.
    remember 0 as z eqn:Ez in E. assert (ZZ : z = 0) by exact Ez. clear Ez.
    destruct (create_made k a size w z sz w' ltac:(lia) ltac:(lia) M0 E) as [sz f OP R S0 S1 S2 S3|sz f DV S1|sz f OP S1|sz f N1 N2 S1]; try contradiction.
    rewrite (drop_head _ _ A2). constructor; cbn [wheap wdesc wfd wpage].
    + exact (li_heap _ _ _ _ _ I).
    + exact (li_nd _ _ _ _ _ I).
    + exact (li_fd _ _ _ _ _ I).
    + exact (li_fnd _ _ _ _ _ I).
    + intros p Hp. apply (wf_other k w _ p (a_mem a) (li_wf _ _ _ _ _ I p Hp)); [|exact S1]. intros X. apply A2. rewrite <- X. exact (in_heap _ _ _ _ _ _ I Hp).
    + exact (li_page _ _ _ _ _ I).
    + exact (li_apart _ _ _ _ _ I).
  - pose proof A as (A1 & A2 & A3 & A4 & A5). assert (M0 : a_map a <> 0) by (destruct A5 as [->|(? & _)]; [discriminate|lia]). clear A.
    remember 0 as z eqn:Ez in E. assert (ZZ : z = 0) by exact Ez. clear Ez.
    destruct (create_made k a size w z sz w' ltac:(lia) ltac:(lia) M0 E) as [sz f OP R S0 S1 S2 S3|sz f DV S1|sz f OP S1|sz f N1 N2 S1]; try contradiction.
    + destruct D as (_ & D & _). destruct DV as (_ & DV & _). congruence.
    + destruct OP as (_ & _ & O3). destruct A4 as [A4|(_ & A4)]; [lia|]. apply (LI_keep k w P L F (a_mem a)); [exact I|lia|exact A2|exact S1|reflexivity| |].
      * apply perm_skip. exact (li_fd _ _ _ _ _ I).
      * constructor; [exact A4|exact (li_fnd _ _ _ _ _ I)].
  - pose proof A as (A1 & A2 & A3 & A4 & A5). assert (M0 : a_map a <> 0) by (destruct A5 as [->|(? & _)]; [discriminate|lia]). clear A.
    remember 0 as z eqn:Ez in E. assert (ZZ : z = 0) by exact Ez. clear Ez.
    destruct (create_made k a size w z sz w' ltac:(lia) ltac:(lia) M0 E) as [sz f OP R S0 S1 S2 S3|sz f DV S1|sz f OP S1|sz f N1 N2 S1]; try contradiction.
    apply (LI_keep k w P L F (a_mem a)); [exact I|lia|exact A2|exact S1|reflexivity|exact (li_fd _ _ _ _ _ I)|exact (li_fnd _ _ _ _ _ I)].
  - exact (LI_malloc k w P L F p n r w' I Hp E).
  - exact (proj1 (LI_destroy k w P1 p P2 L F n r w' K I Hn E)).
Qed.
Lemma LI_init k : LI k nothing [] [] [].
Proof.
  constructor; cbn [nothing wheap wdesc wfd wpage map app].
  - apply perm_nil.
  - constructor.
  - apply perm_nil.
  - constructor.
  - intros p [].
  - intros x. split; [discriminate|intros (p & [] & _)].
  - intros p q x [].
Qed.
Lemma LI_steps k w P L F w' P' L' F' : 1 <= k <= 30 -> lsteps k w P L F w' P' L' F' -> LI k w P L F -> LI k w' P' L' F'.
Proof. intros K H. induction H as [|w P L F w1 P1 L1 F1 w2 P2 L2 F2 H IH X]; intros I; [exact I|]. exact (LI_step _ _ _ _ _ _ _ _ _ K (IH I) X). Qed.
Lemma reach_LI k w P L F : 1 <= k <= 30 -> lreach k w P L F -> LI k w P L F.
Proof. intros K R. exact (LI_steps _ _ _ _ _ _ _ _ _ K R (LI_init k)). Qed.

(** ** What the theorems say *)
Lemma ledger k w P L F : 1 <= k <= 30 -> lreach k w P L F ->
  Permutation (wheap w) (map pl_desc P ++ L) /\ Permutation (wfd w) F /\ (forall x, wpage w x = true <-> exists p, In p P /\ covers k p x) /\
  forall p q x, In p P -> In q P -> pl_desc p <> pl_desc q -> covers k p x -> ~ covers k q x.
Proof.
  intros K R. pose proof (reach_LI k w P L F K R) as I.
  split; [exact (li_heap _ _ _ _ _ I)|]. split; [exact (li_fd _ _ _ _ _ I)|]. split; [exact (li_page _ _ _ _ _ I)|exact (li_apart _ _ _ _ _ I)].
Qed.
Lemma clean k w : 1 <= k <= 30 -> lreach k w [] [] [] -> wheap w = [] /\ wfd w = [] /\ forall x, wpage w x = false.
Proof.
  intros K R. destruct (ledger k w [] [] [] K R) as (H1 & H2 & H3 & _). cbn [map app] in H1. split; [exact (Permutation_nil (Permutation_sym H1))|].
  split; [exact (Permutation_nil (Permutation_sym H2))|]. intros x. destruct (wpage w x) eqn:E; [|reflexivity]. apply H3 in E as (p & [] & _).
Qed.
(** Every operation on a pool that is held works, and destroying it unmaps all of it. *)
Lemma destroys k w P1 p P2 L F n : 1 <= k <= 30 -> lreach k w (P1 ++ p :: P2) L F -> pl_size p - 2 ^ k < n <= pl_size p -> pl_base p <> MAP_FAILED ->
  exists w', pool_destroy k (pl_desc p) n w = Ok (0, w') /\ ~ In (pl_desc p) (wheap w') /\ (forall x, covers k p x -> wpage w' x = false) /\
    forall q x, In q (P1 ++ P2) -> covers k q x -> wpage w' x = true.
Proof.
  intros K R Hn NF. pose proof (reach_LI _ _ _ _ _ K R) as I. assert (Hp : In p (P1 ++ p :: P2)) by (apply in_or_app; right; left; reflexivity).
  assert (E : exists r w', pool_destroy k (pl_desc p) n w = Ok (r, w')).
  { unfold pool_destroy. assert (X : existsb (Z.eqb (pl_desc p)) (wheap w) = true).
    { apply existsb_exists. exists (pl_desc p). split; [exact (in_heap _ _ _ _ _ _ I Hp)|apply Z.eqb_refl]. }
    rewrite X. cbn [negb]. destruct (unmap_pages _ _ _ _) as [r g]. eexists. eexists. reflexivity. }
  destruct E as (r & w' & E). destruct (LI_destroy k w P1 p P2 L F n r w' K I Hn E) as (I' & R0). rewrite (R0 NF) in E. exists w'. split; [exact E|]. split; [|split].
  - unfold pool_destroy in E. destruct (negb _); [discriminate|]. destruct (unmap_pages _ _ _ _) as [r' g]. injection E as _ <-. cbn [wheap]. rewrite in_drop. tauto.
  - intros x C. destruct (wpage w' x) eqn:Y; [|reflexivity]. apply (li_page _ _ _ _ _ I') in Y as (q & Hq & C').
    exfalso. refine (li_apart _ _ _ _ _ I q p x _ Hp _ C' C).
    + apply in_app_or in Hq as [Hq|Hq]; apply in_or_app; [left|right; right]; exact Hq.
    + intros X. pose proof (Permutation_NoDup (li_heap _ _ _ _ _ I) (li_nd _ _ _ _ _ I)) as N. rewrite map_app in N. cbn [map] in N. rewrite <- app_assoc in N. cbn [app] in N.
      apply NoDup_remove_2 in N. apply N. rewrite <- X. rewrite app_assoc. apply in_or_app. left. rewrite <- map_app. apply in_map. exact Hq.
  - intros q x Hq C. apply (li_page _ _ _ _ _ I'). exists q. split; [exact Hq|exact C].
Qed.

(** Whatever is left behind stays. *)
Lemma steps_grow k w P L F w' P' L' F' : lsteps k w P L F w' P' L' F' -> incl L L' /\ incl F F'.
Proof.
  intros H. induction H as [|w P L F w1 P1 L1 F1 w2 P2 L2 F2 H (IH1 & IH2) X]; [split; apply incl_refl|].
  assert (Y : incl L1 L2 /\ incl F1 F2) by (destruct X; split; try apply incl_refl; apply incl_tl, incl_refl).
  destruct Y. split; eapply incl_tran; eassumption.
Qed.
Lemma stays k w P L F a size sz w1 w' P' L' F' : 1 <= k <= 30 -> lreach k w P L F -> 0 <= size < 2 ^ 64 -> sys_ok k size w a -> opened a -> pool_create k a size w = Ok (0, sz, w1) ->
  lsteps k w1 P (a_mem a :: L) (a_fd a :: F) w' P' L' F' -> In (a_mem a) (wheap w') /\ ~ In (a_mem a) (map pl_desc P') /\ In (a_fd a) (wfd w').
Proof.
  intros K R Hs A O E C. pose proof (LI_step k w P L F w1 P (a_mem a :: L) (a_fd a :: F) K (reach_LI _ _ _ _ _ K R) (l_fail_open k w P L F a size sz w1 Hs A E O)) as I1.
  pose proof (LI_steps _ _ _ _ _ _ _ _ _ K C I1) as I. destruct (steps_grow _ _ _ _ _ _ _ _ _ C) as (G1 & G2).
  assert (X : In (a_mem a) L') by (apply G1; left; reflexivity). split; [|split].
  - apply (Permutation_in _ (Permutation_sym (li_heap _ _ _ _ _ I))). apply in_or_app. right. exact X.
  - intros Y. pose proof (Permutation_NoDup (li_heap _ _ _ _ _ I) (li_nd _ _ _ _ _ I)) as N. clear - N X Y.
    induction (map pl_desc P') as [|z l IH]; [contradiction|]. cbn [app] in N. inversion N as [|? ? N1 N2]. destruct Y as [->|Y]; [apply N1; apply in_or_app; right; exact X|exact (IH Y N2)].
  - apply (Permutation_in _ (Permutation_sym (li_fd _ _ _ _ _ I))). apply G2. left. reflexivity.
Qed.
(** A directory whose file system has no room: any number of attempts, each leaves a descriptor and an open file. *)
Definition no_room (i : Z) : answers := mkAn (1 + i) true KDir true i 0 28 MAP_FAILED.
Fixpoint trials (n : nat) : world :=
  match n with O => nothing | S n => match pool_create 12 (no_room (Z.of_nat n)) 4096 (trials n) with Ok (_, _, w) => w | _ => nothing end end.
Fixpoint left_mem (n : nat) : list Z := match n with O => [] | S n => (1 + Z.of_nat n) :: left_mem n end.
Fixpoint left_fd (n : nat) : list Z := match n with O => [] | S n => Z.of_nat n :: left_fd n end.
Lemma trials_create n : pool_create 12 (no_room (Z.of_nat n)) 4096 (trials n) = Ok (0, 4096, trials (S n)) /\
  wheap (trials n) = left_mem n /\ wfd (trials n) = left_fd n.
Proof.
  assert (STEP : forall i w, 0 <= i -> exists w', pool_create 12 (no_room i) 4096 w = Ok (0, 4096, w') /\ wheap w' = 1 + i :: wheap w /\ wfd w' = i :: wfd w).
  { intros i w Hi. unfold pool_create, no_room. cbn [a_mem a_access a_kind a_real a_fd a_adv a_all a_map]. destruct (Z.eqb_spec (1 + i) 0) as [X|_]; [lia|].
    unfold file_type. cbn [a_access a_kind negb rbind]. replace (roundup 12 4096) with (@Ok Z 4096) by (vm_compute; reflexivity). cbn [rbind]. unfold on_directory. cbn [a_fd].
    assert (NL : (i <? 0) = false) by lia. rewrite NL, NL. unfold advise, fallocate. rewrite NL. cbn [a_adv a_all negb]. change (0 =? 0) with true. cbn [negb].
    change ((4096 =? 0) || (2 ^ 63 <=? 4096)) with false. cbv iota. change (28 =? 0) with false. cbn [negb].
    eexists. split; [reflexivity|]. cbn [wheap wfd]. split; reflexivity. }
  induction n as [|n (IH1 & IH2 & IH3)].
  - destruct (STEP 0 nothing ltac:(lia)) as (w' & E & _). split; [|split; reflexivity]. change (Z.of_nat 0) with 0. cbn [trials]. change (Z.of_nat 0) with 0. rewrite E. reflexivity.
  - destruct (STEP (Z.of_nat n) (trials n) ltac:(lia)) as (w1 & E1 & H1 & H2). rewrite IH1 in E1. injection E1 as E1. rewrite <- E1 in H1, H2. rewrite IH2 in H1. rewrite IH3 in H2.
    split; [|split; [exact H1|exact H2]]. destruct (STEP (Z.of_nat (S n)) (trials (S n)) ltac:(lia)) as (w2 & E2 & _). rewrite E2. f_equal. f_equal.
    change (trials (S (S n))) with (match pool_create 12 (no_room (Z.of_nat (S n))) 4096 (trials (S n)) with Ok (_, _, w) => w | _ => nothing end). rewrite E2. reflexivity.
Qed.
Lemma left_mem_lt n x : In x (left_mem n) -> x <= Z.of_nat n.
Proof. induction n as [|n IH]; [intros []|]. intros [<-|H]; [lia|]. apply IH in H. lia. Qed.
Lemma left_fd_lt n x : In x (left_fd n) -> x < Z.of_nat n.
Proof. induction n as [|n IH]; [intros []|]. intros [<-|H]; [lia|]. apply IH in H. lia. Qed.
Lemma left_len n : length (left_mem n) = n /\ length (left_fd n) = n.
Proof. induction n as [|n (H1 & H2)]; [split; reflexivity|]. split; cbn [left_mem left_fd length]; congruence. Qed.
Lemma exhaust n : Z.of_nat n < 2 ^ 46 -> exists w L F, lreach 12 w [] L F /\ length (wheap w) = n /\ length (wfd w) = n.
Proof.
  intros B. exists (trials n), (left_mem n), (left_fd n). destruct (trials_create n) as (_ & H1 & H2). rewrite H1, H2. destruct (left_len n) as (L1 & L2).
  split; [|split; [exact L1|exact L2]]. clear H1 H2 L1 L2. induction n as [|n IH]; [apply ls_nil|]. destruct (trials_create n) as (E & H1 & H2).
  assert (BB : Z.of_nat n < 2 ^ 46) by lia. change (2 ^ 46) with 70368744177664 in B.
  eapply ls_snoc; [exact (IH BB)|]. cbn [left_mem left_fd]. apply (l_fail_open 12 (trials n) [] (left_mem n) (left_fd n) (no_room (Z.of_nat n)) 4096 4096 (trials (S n))); [lia| |exact E|].
  - unfold sys_ok, no_room. cbn [a_mem a_access a_kind a_real a_fd a_adv a_all a_map]. change (2 ^ 47) with 140737488355328. split; [lia|].
    split; [rewrite H1; intros X; apply left_mem_lt in X; lia|]. split; [discriminate|]. split; [right; split; [lia|rewrite H2; intros X; apply left_fd_lt in X; lia]|left; reflexivity].
  - unfold opened, no_room. cbn [a_access a_kind a_fd]. split; [reflexivity|]. split; [reflexivity|lia].
Qed.

Lemma no_file k a size w d sz w' : a_fd a < 0 -> pool_create k a size w = Ok (d, sz, w') -> d = 0 /\ wfd w' = wfd w /\ wpage w' = wpage w.
Proof.
  intros HF. unfold pool_create. destruct (Z.eqb_spec (a_mem a) 0) as [E0|E0]; [discriminate|]. destruct (file_type a) as [t| | |]; cbn [rbind]; try discriminate. destruct t.
  - intros H. injection H as <- <- <-. split; [reflexivity|split; reflexivity].
  - destruct (roundup k size) as [v| | |]; cbn [rbind]; try discriminate. intros H. injection H as <- <- <-. split; [reflexivity|split; reflexivity].
  - destruct (roundup k size) as [v| | |]; cbn [rbind]; try discriminate. unfold on_directory. assert (EF : (a_fd a <? 0) = true) by lia. rewrite EF.
    change (-1 <? 0) with true. cbv iota. unfold advise. change (-1 <? 0) with true. cbv iota. change (negb (9 =? 0)) with true. cbv iota.
    intros H. injection H as <- <- <-. split; [reflexivity|split; reflexivity].
Qed.
Lemma create_null k a size w : a_mem a = 0 -> pool_create k a size w = UB.
Proof. intros E. unfold pool_create. rewrite E. reflexivity. Qed.
Lemma create_stat k a size w : a_mem a <> 0 -> a_access a = true -> a_kind a = KErr -> pool_create k a size w = UB.
Proof. intros E A K. unfold pool_create, file_type. destruct (Z.eqb_spec (a_mem a) 0); [contradiction|]. rewrite A, K. reflexivity. Qed.

(** On a directory where everything works it is [create] of PmemModel.v. *)
Lemma as_C47 k a size w : a_mem a <> 0 -> a_access a = true -> a_kind a = KDir -> 0 <= a_fd a -> a_adv a = 0 -> a_all a = 0 -> a_map a <> 0 ->
  forall D sz, create k size (a_map a) = Ok (Some D, sz) -> 0 < sz < 2 ^ 63 -> exists w', pool_create k a size w = Ok (a_mem a, sz, w') /\ wdesc w' (a_mem a) = D.
Proof.
  intros E A K F V G M D sz. unfold create. destruct (roundup k size) as [v| | |] eqn:R; cbn [rbind]; try discriminate. destruct (Z.eqb_spec (a_map a) 0) as [X|_]; [contradiction|].
  intros H. injection H as <- <-. intros SZ. change (2 ^ 63) with 9223372036854775808 in SZ. unfold pool_create, file_type. destruct (Z.eqb_spec (a_mem a) 0) as [X|_]; [contradiction|].
  rewrite A, K. cbn [negb rbind]. rewrite R. cbn [rbind]. unfold on_directory. assert (NL : (a_fd a <? 0) = false) by lia. rewrite NL, NL. unfold advise, fallocate. rewrite NL, V.
  assert (S1 : (v =? 0) || (2 ^ 63 <=? v) = false) by (change (2 ^ 63) with 9223372036854775808; lia). rewrite S1, G. cbn [negb]. change (0 =? 0) with true. cbn [negb].
  destruct (Z.eqb_spec (a_map a) 0) as [X|_]; [contradiction|]. eexists. split; [reflexivity|]. cbn [wdesc]. rewrite Z.eqb_refl. reflexivity.
Qed.

(** Destroying with the size asked for unmaps the page after the pool, when the size was rounded down. *)
Lemma neighbour k e b w : 1 <= k <= 24 -> 24 <= e <= 62 -> 0 < b -> b mod 2 ^ k = 0 -> forall d, In d (wheap w) -> pstart (wdesc w d) = b ->
  roundup k (2 ^ e + 1) = Ok (2 ^ e) /\ exists w', pool_destroy k d (2 ^ e + 1) w = Ok (0, w') /\ wpage w' ((b + 2 ^ e) / 2 ^ k) = false.
Proof.
  intros K E B M d Hd Hs. split.
  { pose proof (create_too_small k e 1 ltac:(lia) E ltac:(lia)) as C. unfold create in C. destruct (roundup k (2 ^ e + 1)) as [v| | |]; cbn [rbind] in C; try discriminate. injection C as _ C. subst v. reflexivity. }
  unfold pool_destroy. assert (X : existsb (Z.eqb d) (wheap w) = true) by (apply existsb_exists; exists d; split; [exact Hd|apply Z.eqb_refl]). rewrite X. cbn [negb]. rewrite Hs.
  unfold unmap_pages. rewrite M. assert (PE : 0 < 2 ^ e) by (apply Z.pow_pos_nonneg; lia). assert (PK : 1 < 2 ^ k) by (apply Z.pow_gt_1; lia).
  assert (N : (0 <? 2 ^ e + 1) = true) by lia. rewrite N. change (0 =? 0) with true. cbn [andb]. eexists. split; [reflexivity|]. cbn [wpage].
  assert (D1 : (b + 2 ^ e) / 2 ^ k = b / 2 ^ k + 2 ^ (e - k)).
  { replace (2 ^ e) with (2 ^ (e - k) * 2 ^ k) by (rewrite <- Z.pow_add_r by lia; f_equal; lia). rewrite Z.div_add by lia. reflexivity. }
  assert (D2 : (2 ^ e + 1 + 2 ^ k - 1) / 2 ^ k = 2 ^ (e - k) + 1).
  { replace (2 ^ e + 1 + 2 ^ k - 1) with ((2 ^ (e - k) + 1) * 2 ^ k). { apply Z.div_mul. lia. }
    rewrite Z.mul_add_distr_r, <- Z.pow_add_r by lia. replace (e - k + k) with e by lia. lia. }
  rewrite D1, D2. assert (0 < 2 ^ (e - k)) by (apply Z.pow_pos_nonneg; lia). destruct (_ && _) eqn:Y; [reflexivity|]. exfalso. rewrite andb_false_iff, Z.leb_gt, Z.ltb_ge in Y. lia.
Qed.
