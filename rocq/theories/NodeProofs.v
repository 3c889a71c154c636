(** Proofs about the preferred node and the binding of memory. *)
From Verif Require Import Word Res NodeModel NodeSpec.
From Coq Require Import ZArith List Bool Lia.
Import ListNotations.
Open Scope Z_scope.

(** ** Bitmaps *)
Lemma next_from_spec b : forall i, 0 <= i ->
  (bm_next_from i b = -1 /\ forall k, ~ bit b k) \/ exists m, bm_next_from i b = i + Z.of_nat m /\ least_bit b m.
Proof.
  induction b as [|x b IH]; intros i P; cbn [bm_next_from].
  - left. split; [reflexivity|]. intros [|k]; cbn; discriminate.
  - destruct x.
    + right. exists 0%nat. split; [lia|]. split; [reflexivity|lia].
    + destruct (IH (i + 1) ltac:(lia)) as [[E F]|(m & E & A & B)].
      * left. split; [exact E|]. intros [|k]; [discriminate|exact (F k)].
      * right. exists (S m). split; [rewrite E; lia|]. split; [exact A|]. intros [|k] H; [discriminate|]. specialize (B k H). lia.
Qed.
Lemma last_from_spec b : forall i, 0 <= i -> (exists k, bit b k) -> 0 <= bm_last_from i b.
Proof.
  induction b as [|x b IH]; intros i P [k H]; [destruct k; discriminate|]. cbn [bm_last_from].
  destruct (Z.eqb_spec (bm_last_from (i + 1) b) (-1)) as [E|E].
  - destruct k as [|k]; [cbn in H; destruct x; [lia|discriminate]|]. pose proof (IH (i + 1) ltac:(lia) (ex_intro _ k H)). lia.
  - destruct k as [|k].
    + assert (G : forall b i, 0 <= i -> -1 <= bm_last_from i b).
      { clear. induction b as [|y b IH]; intros i P; cbn; [lia|]. specialize (IH (i + 1) ltac:(lia)). destruct (Z.eqb_spec (bm_last_from (i + 1) b) (-1)); [destruct y; lia|lia]. }
      specialize (G b (i + 1) ltac:(lia)). lia.
    + exact (IH (i + 1) ltac:(lia) (ex_intro _ k H)).
Qed.
Lemma first_bit b : (exists k, bit b k) -> exists m, get_first_bit b = Ok (Z.of_nat m) /\ least_bit b m.
Proof.
  intros H. unfold get_first_bit, bm_first. destruct (next_from_spec b 0 ltac:(lia)) as [[_ F]|(m & E & L)].
  - destruct H as [k H]. contradiction (F k H).
  - exists m. split; [|exact L]. rewrite E. cbn [first_bit_loop]. destruct (Z.eqb_spec (0 + Z.of_nat m) (bm_last b)); [f_equal; lia|].
    unfold bm_isset. replace (0 <=? 0 + Z.of_nat m) with true by (symmetry; apply Z.leb_le; lia). cbn [andb].
    replace (Z.to_nat (0 + Z.of_nat m)) with m by lia. destruct L as [L _]. unfold bit in L. rewrite L. reflexivity.
Qed.
Lemma weight_1 b : bm_weight b = 1 <-> exists k, only_bit b k.
Proof.
  assert (P : forall b, 0 <= bm_weight b) by (clear; induction b as [|x b IH]; cbn; [lia|destruct x; lia]).
  assert (Z0 : forall b, bm_weight b = 0 <-> forall k, ~ bit b k).
  { clear - P. induction b as [|x b IH]; cbn [bm_weight].
    - split; [intros _ [|k]; cbn; discriminate|reflexivity].
    - destruct x.
      + specialize (P b). split; [lia|]. intros H. contradiction (H 0%nat). reflexivity.
      + rewrite Z.add_0_l, IH. split; intros H; [intros [|k]; [discriminate|exact (H k)]|intros k; exact (H (S k))]. }
  induction b as [|x b IH]; cbn [bm_weight].
  - split; [lia|]. intros [k H]. specialize (H k). destruct H as [_ H]. specialize (H eq_refl). destruct k; discriminate.
  - destruct x.
    + split.
      * intros H. exists 0%nat. assert (W : bm_weight b = 0) by lia. rewrite Z0 in W. intros [|k]; [split; reflexivity|]. split; [intros B; contradiction (W k B)|discriminate].
      * intros [k H]. assert (k = 0%nat) by (symmetry; apply H; reflexivity). subst k. assert (W : bm_weight b = 0); [|lia]. apply Z0. intros k B. assert (S k = 0%nat) by (apply H; exact B). discriminate.
    + rewrite Z.add_0_l, IH. split; intros [k H].
      * exists (S k). intros [|i]; [split; discriminate|]. change (bit (false :: b) (S i)) with (bit b i). rewrite (H i). split; congruence.
      * destruct k as [|k]; [destruct (H 0%nat) as [_ B]; specialize (B eq_refl); discriminate|]. exists k. intros i. change (bit b i) with (bit (false :: b) (S i)). rewrite (H (S i)). split; congruence.
Qed.

(** ** Preferred node *)
Lemma pref_numa_ok h : exists r, pref_numa_binding h = Ok r.
Proof.
  unfold pref_numa_binding. destruct (negb (has_nodes h)); [eexists; reflexivity|]. destruct (memb_status h =? 0); [eexists; reflexivity|].
  destruct (memcpu_status h =? 0); [eexists; reflexivity|]. cbv zeta. destruct (Z.eqb_spec (bm_weight (to_nodes h (memcpu h))) 1) as [E|E]; [|eexists; reflexivity].
  apply weight_1 in E. destruct E as [k E]. destruct (first_bit (to_nodes h (memcpu h))) as (m & F & _); [exists k; apply E; reflexivity|]. rewrite F. eexists; reflexivity.
Qed.
Lemma preferred_none h : cpub_status h = 0 -> exists l, preferred h = Ok (-1, l) /\ (2 <= l)%nat.
Proof.
  intros E. unfold preferred. destruct (pref_numa_ok h) as [r ->]. cbn [rbind]. unfold pref_thread_binding. rewrite E. cbn. eexists. split; [reflexivity|lia].
Qed.
Lemma preferred_empty h : cpub_status h <> 0 -> (forall k, ~ bit (to_nodes h (cpub h)) k) -> exists l, preferred h = Ok (-1, l).
Proof.
  intros E F. unfold preferred. destruct (pref_numa_ok h) as [r ->]. cbn [rbind]. unfold pref_thread_binding. destruct (Z.eqb_spec (cpub_status h) 0); [contradiction|]. cbv zeta.
  destruct (Z.eqb_spec (bm_weight (to_nodes h (cpub h))) 1) as [W|W]; [|eexists; reflexivity]. apply weight_1 in W. destruct W as [k W]. contradiction (F k). apply W. reflexivity.
Qed.
(** If hwloc reports a failure and yet fills the set with one node, that node is the answer. *)
Lemma preferred_failed h k : cpub_status h <> 0 -> only_bit (to_nodes h (cpub h)) k -> exists l, preferred h = Ok (Z.of_nat k, l).
Proof.
  intros E O. unfold preferred. destruct (pref_numa_ok h) as [r ->]. cbn [rbind]. unfold pref_thread_binding. destruct (Z.eqb_spec (cpub_status h) 0); [contradiction|]. cbv zeta.
  destruct (Z.eqb_spec (bm_weight (to_nodes h (cpub h))) 1) as [W|W]; [|contradiction W; apply weight_1; exists k; exact O].
  destruct (first_bit (to_nodes h (cpub h))) as (m & F & L & _); [exists k; apply O; reflexivity|]. apply O in L. subst m. rewrite F. eexists; reflexivity.
Qed.
Lemma default_source nodes h : cpub_status h = 0 -> getcpu h = None -> local_source nodes h = Ok DEFAULT_ID.
Proof. intros E G. unfold local_source, init_on_node. destruct (preferred_none h E) as (l & -> & _). cbn. rewrite G. cbn. rewrite orb_true_r. reflexivity. Qed.
Lemma getcpu_source nodes h k p : cpub_status h = 0 -> getcpu h = Some (k, p) -> 0 <= p -> nodes <= 128 ->
  (p < nodes -> local_source nodes h = Ok p) /\ (nodes <= p < 128 -> local_source nodes h = UB) /\ (128 < p -> local_source nodes h = Abort).
Proof.
  intros E G P N. assert (I : init_on_node h = Ok p) by (unfold init_on_node; destruct (preferred_none h E) as (l & -> & _); cbn; rewrite G; reflexivity).
  unfold local_source. rewrite I. unfold rbind. cbv zeta. replace (p =? -1) with false by (symmetry; apply Z.eqb_neq; lia). unfold DEFAULT_ID.
  destruct (Z.ltb_spec 128 p); destruct (Z.leb_spec 0 p); destruct (Z.ltb_spec p nodes); destruct (Z.eqb_spec p 128); cbn; repeat split; intros; try lia; reflexivity.
Qed.

(** ** Binding *)
Lemma take_in n l x l' : ns_take n l = Some (x, l') -> In x l /\ forall y, In y l' -> In y l.
Proof.
  revert x l'; induction l as [|z l IH]; intros x l' H; cbn in H; [discriminate|]. destruct (fst z =? n).
  - injection H as <- <-. split; [now left|]. intros y I. now right.
  - destruct (ns_take n l) as [[r k]|]; [|discriminate]. injection H as <- <-. destruct (IH _ _ eq_refl) as [A B]. split; [now right|]. intros y [<-|I]; [now left|right; auto].
Qed.
Lemma remove_in {A} i (l : list A) x : In x (remove_nth i l) -> In x l.
Proof.
  unfold remove_nth. intros H. apply in_app_iff in H. rewrite <- (firstn_skipn i l). apply in_app_iff. destruct H as [H|H]; [now left|right].
  replace (skipn (S i) l) with (skipn 1 (skipn i l)) in H; [destruct (skipn i l); [contradiction H|now right]|]. 
  clear. revert l; induction i as [|i IH]; intros l; [reflexivity|]. destruct l as [|y l]; [reflexivity|]. exact (IH l).
Qed.
Lemma migrate_off nodes t l : migrate_all nodes false t l = Ok l.
Proof. induction l as [|x l IH]; [reflexivity|]. cbn. unfold migrate_mem. rewrite orb_true_r. cbn. rewrite IH. reflexivity. Qed.
Lemma migrate_on nodes t l : 0 <= t < nodes -> (forall x, In x l -> fst x <> 0) -> migrate_all nodes true t l = Ok (map (fun x => (fst x, Some t)) l).
Proof.
  intros P. induction l as [|x l IH]; intros H; [reflexivity|]. cbn. unfold migrate_mem. destruct (Z.eqb_spec (fst x) 0) as [E|E]; [contradiction (H x (or_introl eq_refl))|].
  cbn [orb negb]. replace (0 <=? t) with true by (symmetry; apply Z.leb_le; lia). replace (t <? nodes) with true by (symmetry; apply Z.ltb_lt; lia). cbn.
  rewrite IH; [reflexivity|]. intros y I. apply H. now right.
Qed.
Record NI (s : nst) : Prop := mkNI {
  ni_src : forall j, nnode (nsrcs s j) = Z.of_nat j /\ nset (nsrcs s j) = Some (Z.of_nat j) /\ nstrict (nsrcs s j) = true;
  ni_bound : all_bound s;
  ni_pos : (forall c x, In x (nsegs s c) -> 0 < fst x) /\ (forall j x, In x (ncache (nsrcs s j)) -> 0 < fst x) }.
Lemma NI_0 : NI nst0.
Proof.
  split; cbn.
  - intros j. unfold ns_init. cbn. destruct (Z.eqb_spec (Z.of_nat j) (-1)); [lia|]. auto.
  - split; cbn; intros; contradiction.
  - split; cbn; intros; contradiction.
Qed.
Lemma bind_strict s j old : nnode s = Z.of_nat j -> nset s = Some (Z.of_nat j) -> nstrict s = true -> ns_bind s old = Some (Z.of_nat j).
Proof. intros A B C. unfold ns_bind. rewrite A, B, C. destruct (Z.eqb_spec (Z.of_nat j) (-1)); [lia|reflexivity]. Qed.
Lemma nupd_same {A} (f : nat -> A) i v : nupd f i v i = v.
Proof. unfold nupd. now rewrite Nat.eqb_refl. Qed.
Lemma nupd_other {A} (f : nat -> A) i v k : k <> i -> nupd f i v k = f k.
Proof. intros N. unfold nupd. destruct (Nat.eqb_spec k i); [contradiction|reflexivity]. Qed.
(** A source is replaced by one with the same settings and a cache of good segments. *)
Lemma src_upd s j q (f : nat -> nsrc) : NI s -> nnode q = nnode (nsrcs s j) -> nset q = nset (nsrcs s j) -> nstrict q = nstrict (nsrcs s j) -> f = nupd (nsrcs s) j q ->
  (forall x, In x (ncache q) -> 0 < fst x /\ snd x = Some (Z.of_nat j)) ->
  (forall i, nnode (f i) = Z.of_nat i /\ nset (f i) = Some (Z.of_nat i) /\ nstrict (f i) = true) /\
  (forall i x, In x (ncache (f i)) -> snd x = Some (Z.of_nat i)) /\ (forall i x, In x (ncache (f i)) -> 0 < fst x).
Proof.
  intros I A B C -> D. split; [|split].
  - intros i. destruct (Nat.eq_dec i j) as [->|N]; [rewrite nupd_same, A, B, C|rewrite nupd_other by exact N]; apply (ni_src _ I).
  - intros i x. destruct (Nat.eq_dec i j) as [->|N]; [rewrite nupd_same|rewrite nupd_other by exact N]; [intros H; apply D, H|apply (proj2 (ni_bound _ I))].
  - intros i x. destruct (Nat.eq_dec i j) as [->|N]; [rewrite nupd_same|rewrite nupd_other by exact N]; [intros H; apply D, H|apply (proj2 (ni_pos _ I))].
Qed.
Lemma NI_step nodes on s a : NI s -> nvalid nodes on s a -> exists s', nstep nodes on a s = Ok s' /\ NI s'.
Proof.
  intros I V. pose proof (ni_src _ I) as Is. pose proof (ni_bound _ I) as [B1 B2]. pose proof (ni_pos _ I) as [P1 P2].
  destruct a as [c n cached|c i keep|j x|j t|c t j]; cbn [nvalid nstep] in *.
  - set (j := nlink s c). destruct (ns_request (nsrcs s j) n cached) as [q x] eqn:E. eexists. split; [reflexivity|].
    assert (Q : nnode q = nnode (nsrcs s j) /\ nset q = nset (nsrcs s j) /\ nstrict q = nstrict (nsrcs s j) /\ (forall y, In y (ncache q) -> In y (ncache (nsrcs s j))) /\
      0 < fst x /\ snd x = Some (Z.of_nat j)).
    { unfold ns_request in E. destruct cached.
      - destruct (ns_take n (ncache (nsrcs s j))) as [[y l]|] eqn:T.
        + injection E as <- <-. destruct (take_in _ _ _ _ T) as [Iy Il]. cbn. split; [reflexivity|]. split; [reflexivity|]. split; [reflexivity|]. split; [exact Il|]. split; [exact (P2 j y Iy)|exact (B2 j y Iy)].
        + injection E as <- <-. cbn. split; [reflexivity|]. split; [reflexivity|]. split; [reflexivity|]. split; [auto|]. split; [exact V|]. destruct (Is j) as (A & B & C). apply bind_strict; assumption.
      - injection E as <- <-. cbn. split; [reflexivity|]. split; [reflexivity|]. split; [reflexivity|]. split; [auto|]. split; [exact V|]. destruct (Is j) as (A & B & C). apply bind_strict; assumption. }
    destruct Q as (Q1 & Q2 & Q3 & Q4 & Q5 & Q6).
    destruct (src_upd s j q _ I Q1 Q2 Q3 eq_refl) as (R1 & R2 & R3); [intros y Iy; split; [exact (P2 j y (Q4 y Iy))|exact (B2 j y (Q4 y Iy))]|].
    split; cbn; [exact R1|split; cbn; [|exact R2]|split; [|exact R3]].
    + intros c' y. destruct (Nat.eq_dec c' c) as [->|N]; [rewrite nupd_same|rewrite nupd_other by exact N; apply B1]. intros [<-|H]; [exact Q6|exact (B1 c y H)].
    + intros c' y. destruct (Nat.eq_dec c' c) as [->|N]; [rewrite nupd_same|rewrite nupd_other by exact N; apply P1]. intros [<-|H]; [exact Q5|exact (P1 c y H)].
  - destruct (nth_error (nsegs s c) i) as [x|] eqn:E; [|exists s; split; [reflexivity|exact I]]. eexists. split; [reflexivity|]. set (j := nlink s c).
    apply nth_error_In in E. pose proof (B1 c x E) as Bx. pose proof (P1 c x E) as Px.
    assert (Q : nnode (ns_free (nsrcs s j) x keep) = nnode (nsrcs s j) /\ nset (ns_free (nsrcs s j) x keep) = nset (nsrcs s j) /\ nstrict (ns_free (nsrcs s j) x keep) = nstrict (nsrcs s j))
      by (unfold ns_free; destruct keep; auto).
    destruct Q as (Q1 & Q2 & Q3).
    destruct (src_upd s j _ _ I Q1 Q2 Q3 eq_refl) as (R1 & R2 & R3).
    { unfold ns_free. destruct keep; cbn; [|intros y H; split; [exact (P2 j y H)|exact (B2 j y H)]]. intros y [<-|H]; [split; assumption|split; [exact (P2 j y H)|exact (B2 j y H)]]. }
    split; cbn; [exact R1|split; cbn; [|exact R2]|split; [|exact R3]].
    + intros c' y. destruct (Nat.eq_dec c' c) as [->|N]; [rewrite nupd_same|rewrite nupd_other by exact N; apply B1]. intros H. exact (B1 c y (remove_in _ _ _ H)).
    + intros c' y. destruct (Nat.eq_dec c' c) as [->|N]; [rewrite nupd_same|rewrite nupd_other by exact N; apply P1]. intros H. exact (P1 c y (remove_in _ _ _ H)).
  - eexists. split; [reflexivity|]. destruct (Is j) as (A & B & C).
    destruct (src_upd s j (ns_insert (nsrcs s j) x) _ I eq_refl eq_refl eq_refl eq_refl) as (R1 & R2 & R3).
    { cbn. intros y [<-|H]; [cbn; split; [exact V|apply bind_strict; assumption]|split; [exact (P2 j y H)|exact (B2 j y H)]]. }
    split; cbn; [exact R1|split; cbn; [exact B1|exact R2]|split; [exact P1|exact R3]].
  - assert (E : ns_migrate nodes on t (nsrcs s j) = Ok (nsrcs s j)).
    { unfold ns_migrate. destruct on; [|reflexivity]. destruct V as [V|V]; [discriminate|]. cbn [negb]. destruct (Is j) as (A & _). rewrite A, V, Z.eqb_refl. reflexivity. }
    rewrite E. cbn. eexists. split; [reflexivity|].
    destruct (src_upd s j (nsrcs s j) _ I eq_refl eq_refl eq_refl eq_refl) as (R1 & R2 & R3); [intros y H; split; [exact (P2 j y H)|exact (B2 j y H)]|].
    split; cbn; [exact R1|split; cbn; [exact B1|exact R2]|split; [exact P1|exact R3]].
  - assert (X : forall k, on = true /\ t = Z.of_nat k /\ t < nodes -> migrate_all nodes on t (nsegs s c) = Ok (map (fun x => (fst x, Some t)) (nsegs s c))).
    { intros k (-> & -> & Lt). apply migrate_on; [lia|]. intros x H. specialize (P1 c x H). lia. }
    destruct j as [j|].
    + rewrite (X j V). cbn. eexists. split; [reflexivity|]. destruct V as (_ & -> & _). split; cbn; [exact Is|split; cbn; [|exact B2]|split; [|exact P2]].
      * intros c' y. destruct (Nat.eq_dec c' c) as [->|N]; [rewrite !nupd_same|rewrite !nupd_other by exact N; apply B1]. intros H. apply in_map_iff in H. destruct H as (z & <- & _). reflexivity.
      * intros c' y. destruct (Nat.eq_dec c' c) as [->|N]; [rewrite !nupd_same|rewrite !nupd_other by exact N; apply P1]. intros H. apply in_map_iff in H. destruct H as (z & <- & H). exact (P1 c z H).
    + destruct on.
      * destruct V as [V|(V1 & V2)]; [discriminate|]. rewrite (X (nlink s c)) by auto. cbn. eexists. split; [reflexivity|]. split; cbn; [exact Is|split; cbn; [|exact B2]|split; [|exact P2]].
        { intros c' y. destruct (Nat.eq_dec c' c) as [->|N]; [rewrite !nupd_same|rewrite !nupd_other by exact N; apply B1]. intros H. apply in_map_iff in H. destruct H as (z & <- & _). cbn. rewrite V1. reflexivity. }
        { intros c' y. destruct (Nat.eq_dec c' c) as [->|N]; [rewrite !nupd_same|rewrite !nupd_other by exact N; apply P1]. intros H. apply in_map_iff in H. destruct H as (z & <- & H). exact (P1 c z H). }
      * rewrite migrate_off. cbn. eexists. split; [reflexivity|]. split; cbn; [exact Is|split; cbn; [|exact B2]|split; [|exact P2]].
        { intros c' y. destruct (Nat.eq_dec c' c) as [->|N]; [rewrite !nupd_same|rewrite !nupd_other by exact N]; apply B1. }
        { intros c' y. destruct (Nat.eq_dec c' c) as [->|N]; [rewrite !nupd_same|rewrite !nupd_other by exact N]; apply P1. }
Qed.
Lemma nreach_NI nodes on s : nreach nodes on s -> NI s.
Proof. induction 1 as [|s a s' R IH V H]; [apply NI_0|]. destruct (NI_step nodes on s a IH V) as (s2 & E & I). congruence. Qed.
Lemma bound_all nodes on s : nreach nodes on s -> all_bound s.
Proof. intros R. exact (ni_bound _ (nreach_NI _ _ _ R)). Qed.
Lemma node_no_fault nodes on s a : nreach nodes on s -> nvalid nodes on s a -> exists s', nstep nodes on a s = Ok s'.
Proof. intros R V. destruct (NI_step nodes on s a (nreach_NI _ _ _ R) V) as (s' & E & _). exists s'. exact E. Qed.

Lemma on_node_good h nodes node : has_nodes h = true -> 0 <= nodes <= 128 ->
  (0 <= node < nodes -> on_node_chain h nodes node = Ok (Some node) /\ on_node_init h nodes node = Some (ns_init node true)) /\
  (~ 0 <= node < nodes -> on_node_chain h nodes node = Abort).
Proof.
  intros H P. unfold on_node_chain, on_node_entry, on_node_init. rewrite H. cbn [andb].
  destruct (Z.ltb_spec node 0) as [D|D]; destruct (Z.leb_spec 128 node) as [F|F];
  destruct (Z.leb_spec 0 node) as [A|A]; destruct (Z.ltb_spec node nodes) as [B|B]; destruct (Z.ltb_spec node 128) as [C|C]; cbn; try lia; split; intros Q; try lia; auto.
Qed.

(** ** What breaks it *)
(** A strict source that is moved to another node. *)
Lemma moved_source nodes s j t n : NI s -> 0 <= t < nodes -> t <> Z.of_nat j -> 0 < n ->
  exists s', nstep nodes true (NMigSrc j t) s = Ok s' /\ nsrcs s' j = mkNs (Z.of_nat j) (Some (Z.of_nat j)) true (map (fun x => (fst x, Some t)) (ncache (nsrcs s j))) /\
    snd (ns_request (nsrcs s' j) n false) = (n, Some (Z.of_nat j)).
Proof.
  intros I P N Q. cbn [nstep]. unfold ns_migrate. cbn [negb]. destruct (ni_src _ I j) as (A & B & C). rewrite A, B, C.
  destruct (Z.eqb_spec t (Z.of_nat j)); [contradiction|]. destruct (Z.eqb_spec t (-1)); [lia|].
  rewrite migrate_on; [|exact P|intros x H; pose proof (proj2 (ni_pos _ I) j x H); lia]. cbn [rbind]. eexists. split; [reflexivity|]. cbn [nsrcs]. rewrite nupd_same. split; [reflexivity|].
  unfold ns_request. cbn [snd]. rewrite (bind_strict _ j None); reflexivity.
Qed.
(** Moving it back does nothing. *)
Lemma moved_back nodes s j t : NI s -> 0 <= t < nodes -> t <> Z.of_nat j ->
  exists s' s2, nstep nodes true (NMigSrc j t) s = Ok s' /\ nstep nodes true (NMigSrc j (Z.of_nat j)) s' = Ok s2 /\ nsrcs s2 j = nsrcs s' j /\
    forall x, In x (ncache (nsrcs s2 j)) -> snd x = Some t.
Proof.
  intros I P N. destruct (moved_source nodes s j t 1 I P N ltac:(lia)) as (s' & E & F & _). exists s'. cbn [nstep].
  assert (M : ns_migrate nodes true (Z.of_nat j) (nsrcs s' j) = Ok (nsrcs s' j)) by (unfold ns_migrate; rewrite F; cbn [negb nnode]; rewrite Z.eqb_refl; reflexivity).
  rewrite M. cbn [rbind]. eexists. split; [exact E|]. split; [reflexivity|]. cbn [nsrcs]. rewrite nupd_same. split; [reflexivity|].
  rewrite F. cbn. intros x H. apply in_map_iff in H. destruct H as (z & <- & _). reflexivity.
Qed.
(** A chain moved to another source without its content. *)
Lemma moved_chain nodes s c j n : NI s -> nlink s c <> j -> 0 < n ->
  exists s', nruns nodes false s [NReq c n false; NMigChain c (Z.of_nat j) (Some j); NFree c 0 true] s' /\
    exists x, In x (ncache (nsrcs s' j)) /\ snd x = Some (Z.of_nat (nlink s c)).
Proof.
  intros I N P. destruct (ni_src _ I (nlink s c)) as (A & B & C).
  eexists. split.
  - econstructor; [reflexivity|]. econstructor; [cbn [nstep]; rewrite migrate_off; cbn [rbind]; reflexivity|]. econstructor; [cbn [nstep nsegs nlink nsrcs]; rewrite !nupd_same; cbn [nth_error]; reflexivity|constructor].
  - cbn [nsrcs]. rewrite nupd_same. unfold ns_free. cbn [ncache]. eexists. split; [left; reflexivity|]. cbn [snd]. apply bind_strict; assumption.
Qed.
(** Target -1. *)
Lemma reset_ub nodes s c x l j : nsegs s c = x :: l -> fst x <> 0 -> nstep nodes true (NMigChain c (-1) j) s = UB.
Proof. intros E F. cbn [nstep]. rewrite E. cbn [migrate_all]. unfold migrate_mem. destruct (Z.eqb_spec (fst x) 0); [contradiction|]. reflexivity. Qed.
(** Without getcpu the source always exists. *)
Lemma source_safe nodes h : getcpu h = None -> nodes <= 128 -> (forall b k, bit (to_nodes h b) k -> Z.of_nat k < nodes) ->
  exists r, local_source nodes h = Ok r /\ (r = DEFAULT_ID \/ 0 <= r < nodes /\ only_bit (to_nodes h (cpub h)) (Z.to_nat r)).
Proof.
  intros G N B. assert (P : exists x l, preferred h = Ok (x, l) /\ (x = -1 \/ exists k, x = Z.of_nat k /\ only_bit (to_nodes h (cpub h)) k)).
  { destruct (Z.eq_dec (cpub_status h) 0) as [E|E].
    - destruct (preferred_none h E) as (l & F & _). exists (-1), l. auto.
    - destruct (Z.eq_dec (bm_weight (to_nodes h (cpub h))) 1) as [W|W].
      + apply weight_1 in W. destruct W as [k W]. destruct (preferred_failed h k E W) as (l & F). exists (Z.of_nat k), l. split; [exact F|]. right. exists k. auto.
      + unfold preferred. destruct (pref_numa_ok h) as [r ->]. cbn [rbind]. unfold pref_thread_binding. destruct (Z.eqb_spec (cpub_status h) 0); [contradiction|]. cbv zeta.
        destruct (Z.eqb_spec (bm_weight (to_nodes h (cpub h))) 1) as [Y|Y]; [contradiction|]. cbn. eexists _, _. split; [reflexivity|]. now left. }
  destruct P as (x & l & F & D). unfold local_source, init_on_node. rewrite F. cbn [rbind fst]. rewrite G. destruct D as [->|(k & -> & O)].
  - change (-1 =? -1) with true. cbn. exists DEFAULT_ID. rewrite orb_true_r. auto.
  - destruct (Z.eqb_spec (Z.of_nat k) (-1)); [lia|]. unfold rbind. cbv zeta. destruct (Z.eqb_spec (Z.of_nat k) (-1)); [lia|]. assert (K : Z.of_nat k < nodes) by (apply (B (cpub h)); apply O; reflexivity).
    destruct (Z.ltb_spec 128 (Z.of_nat k)); [lia|]. destruct (Z.leb_spec 0 (Z.of_nat k)); [|lia]. destruct (Z.ltb_spec (Z.of_nat k) nodes); [|lia]. cbn. eexists. split; [reflexivity|]. right. rewrite Nat2Z.id. split; [lia|exact O].
Qed.
(** The memory binding of the thread plays no role. *)
Lemma membind_ignored h h' : cpub_status h' = cpub_status h -> cpub h' = cpub h -> to_nodes h' = to_nodes h ->
  exists x l l', preferred h = Ok (x, l) /\ preferred h' = Ok (x, l').
Proof.
  intros A B C. unfold preferred. destruct (pref_numa_ok h) as [r ->]. destruct (pref_numa_ok h') as [r' ->]. cbn [rbind]. unfold pref_thread_binding. rewrite A, B, C.
  destruct (cpub_status h =? 0); [cbn; eexists _, _, _; split; reflexivity|]. cbv zeta. destruct (Z.eqb_spec (bm_weight (to_nodes h (cpub h))) 1) as [W|W]; [|cbn; eexists _, _, _; split; reflexivity].
  apply weight_1 in W. destruct W as [k W]. destruct (first_bit (to_nodes h (cpub h))) as (m & F & _); [exists k; apply W; reflexivity|]. rewrite F. cbn. eexists _, _, _. split; reflexivity.
Qed.
