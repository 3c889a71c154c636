(** Proofs about the NUMA statistics. *)
From Verif Require Import Word Res NumaModel NumaStatModel NumaStatSpec.
From Coq Require Import ZArith List Bool Lia.
Import ListNotations.
Open Scope Z_scope.

Lemma add_small x y : 0 <= x + y < W64 -> add64 x y = x + y.
Proof. intros H. unfold add64, w64. apply Z.mod_small. exact H. Qed.
Lemma pages_n first n : 0 <= n < W64 -> 0 <= first -> sub64 (add64 first n) first = n.
Proof. intros H P. unfold sub64, add64, w64. rewrite Zminus_mod_idemp_l. replace (first + n - first) with n by lia. apply Z.mod_small. exact H. Qed.
Lemma count_0 p : count p 0 = 0.
Proof. reflexivity. Qed.
Lemma count_S p n : count p (S n) = count p n + (if p (Z.of_nat n) then 1 else 0).
Proof.
  unfold count. rewrite seq_S, filter_app, app_length. cbn [Nat.add filter]. destruct (p (Z.of_nat n)); cbn [length]; lia.
Qed.
Lemma count_le p n : 0 <= count p n <= Z.of_nat n.
Proof. induction n as [|n IH]; [rewrite count_0; lia|]. rewrite count_S. destruct (p (Z.of_nat n)); lia. Qed.
Lemma count_ext p q n : (forall i, 0 <= i < Z.of_nat n -> p i = q i) -> count p n = count q n.
Proof. induction n as [|n IH]; intros H; [reflexivity|]. rewrite !count_S, IH by (intros; apply H; lia). rewrite H by lia. reflexivity. Qed.
Lemma touched_exact ptr size : 0 < size -> (size / 4096 = touched ptr size <-> ptr mod 4096 = 0 /\ size mod 4096 = 0).
Proof. intros P. unfold touched. split; intros H; [|destruct H]; lia. Qed.
Lemma touched_more ptr size : 0 < size -> size / 4096 <= touched ptr size <= size / 4096 + 2.
Proof. intros P. unfold touched. lia. Qed.

(** ** With the page map *)
Record sofar (w : world) (t : Z -> entry) (ptr : Z) (j : nat) (s0 s : nstat) : Prop := mkSofar {
  sf_nodes : st_nodes s = st_nodes s0;
  sf_total : st_total s = st_total s0 + Z.of_nat j;
  sf_mapped : st_mapped s = st_mapped s0 + count (present t ptr) j;
  sf_pages : forall k, st_pages s k = st_pages s0 k + (if (0 <=? k) && (k <=? MAXNODE) then count (present_on w t ptr k) j else 0) }.
Definition fits (s : nstat) (n : Z) : Prop := 0 <= st_total s /\ st_total s + n < W64 /\ 0 <= st_mapped s /\ st_mapped s + n < W64 /\ forall k, 0 <= st_pages s k /\ st_pages s k + n < W64.
Lemma node_answer w ptr i : w_move_pages w = true -> w_status w (ptr + i * 4096) <> -1 ->
  exists k, node_of_page w (ptr + i * 4096) = k /\ 0 <= k <= MAXNODE /\ forall x, 0 <= x <= MAXNODE -> (on_node w ptr x i = (x =? k)).
Proof.
  intros M N. unfold node_of_page, on_node. rewrite M. cbv zeta. unfold MAXNODE.
  destruct (Z.leb_spec (-1) (w_status w (ptr + i * 4096))); destruct (Z.ltb_spec (w_status w (ptr + i * 4096)) 128); destruct (Z.leb_spec 0 (w_status w (ptr + i * 4096))); cbn [andb]; try lia;
    eexists; (split; [reflexivity|]); (split; [lia|]); intros x Hx; try reflexivity; apply Z.eqb_sym.
Qed.
Lemma loop_steps w t ptr size s0 f : readable w t ptr size -> 0 <= ptr -> ptr + size <= W64 -> fits s0 (size / 4096) ->
  forall j, Z.of_nat j <= size / 4096 -> Z.of_nat j <= 524288 ->
  exists s, sofar w t ptr j s0 s /\
    cumul_loop (j + f) w (fun i => t (add64 (ptr / 4096) i)) ptr (size / 4096) 0 s0 = cumul_loop f w (fun i => t (add64 (ptr / 4096) i)) ptr (size / 4096) (Z.of_nat j) s.
Proof.
  intros (_ & _ & _ & M & R) P L F. set (n := size / 4096) in *.
  assert (G : forall j, Z.of_nat j <= n -> Z.of_nat j <= 524288 -> forall g, exists s, sofar w t ptr j s0 s /\
    cumul_loop (j + g) w (fun i => t (add64 (ptr / 4096) i)) ptr n 0 s0 = cumul_loop g w (fun i => t (add64 (ptr / 4096) i)) ptr n (Z.of_nat j) s).
  { induction j as [|j IH]; intros A B g.
    - exists s0. split; [|reflexivity]. split; [reflexivity|lia|rewrite count_0; lia|]. intros k. destruct ((0 <=? k) && (k <=? MAXNODE)); [rewrite count_0|]; lia.
    - destruct (IH ltac:(lia) ltac:(lia) (S g)) as (s & S1 & S2). replace (S j + g)%nat with (j + S g)%nat by lia. rewrite S2.
      cbn [cumul_loop]. destruct (Z.ltb_spec (Z.of_nat j) n); [|lia]. destruct S1 as [Sa Sb Sc Sd]. destruct F as (F1 & F2 & F3 & F4 & F5).
      pose proof (count_le (present t ptr) j) as C1.
      assert (Q : ptr / 4096 + Z.of_nat j < W64) by (subst n; lia).
      rewrite (add_small (ptr / 4096)) by lia. rewrite (add_small (st_total s)) by lia.
      destruct (e_present (t (ptr / 4096 + Z.of_nat j))) eqn:Ep.
      + destruct (R (Z.of_nat j) ltac:(lia) Ep) as (R1 & R2). destruct (Z.eqb_spec (e_order (t (ptr / 4096 + Z.of_nat j))) 12); [|contradiction].
        cbv zeta. cbn [st_nodes st_total st_mapped st_pages]. rewrite (add_small (st_mapped s)) by lia.
        destruct (Z.leb_spec (Z.of_nat j * 4096) INT_MAX) as [U|U]; [|unfold INT_MAX in U; lia].
        rewrite (add_small ptr) by (subst n; lia). destruct (node_answer w ptr (Z.of_nat j) M R2) as (k & E & K & O). rewrite E.
        unfold count_node. replace ((0 <=? k) && (k <=? MAXNODE)) with true by (symmetry; apply andb_true_iff; split; apply Z.leb_le; lia).
        cbn [rbind]. destruct (Z.eqb_spec (Z.of_nat j) INT_MAX) as [V|V]; [unfold INT_MAX in V; lia|].
        eexists. split; [|replace (Z.of_nat (S j)) with (Z.of_nat j + 1) by lia; reflexivity].
        split; cbn [st_nodes st_total st_mapped st_pages]; [exact Sa|lia|rewrite count_S; unfold present at 2; rewrite Ep; lia|].
        intros x. specialize (Sd x). specialize (F5 x). pose proof (count_le (present_on w t ptr x) j) as C2.
        destruct (Z.eqb_spec x k) as [->|N].
        * replace ((0 <=? k) && (k <=? MAXNODE)) with true in * by (symmetry; apply andb_true_iff; split; apply Z.leb_le; lia).
          rewrite count_S. unfold present_on at 2. rewrite Ep, (O k K), Z.eqb_refl. cbn [andb]. rewrite add_small; lia.
        * destruct ((0 <=? x) && (x <=? MAXNODE)) eqn:D; [|exact Sd]. apply andb_true_iff in D. destruct D as [D1 D2]. apply Z.leb_le in D1, D2.
          rewrite count_S. unfold present_on at 2. rewrite Ep, (O x ltac:(lia)). destruct (Z.eqb_spec x k); [contradiction|]. cbn [andb]. lia.
      + cbn [rbind]. destruct (Z.eqb_spec (Z.of_nat j) INT_MAX) as [V|V]; [unfold INT_MAX in V; lia|].
        eexists. split; [|replace (Z.of_nat (S j)) with (Z.of_nat j + 1) by lia; reflexivity].
        split; cbn [st_nodes st_total st_mapped st_pages]; [exact Sa|lia|rewrite count_S; unfold present at 2; rewrite Ep; lia|].
        intros x. specialize (Sd x). destruct ((0 <=? x) && (x <=? MAXNODE)); [|exact Sd]. rewrite count_S. unfold present_on at 2. rewrite Ep. cbn [andb]. lia. }
  intros j A B. exact (G j A B f).
Qed.
Lemma cumul_unfold fuel w t s ptr size : readable w t ptr size -> 0 <= ptr -> 0 <= size < W64 ->
  cumul fuel w s ptr size = cumul_loop fuel w (fun i => t (add64 (ptr / 4096) i)) ptr (size / 4096) 0 s.
Proof.
  intros (A & B & C & _) P Q. unfold cumul, stat_pages, PAGE. cbv zeta. unfold read_pagemap. rewrite A, B, C. cbn [rbind]. rewrite pages_n by lia. reflexivity.
Qed.
Lemma cumul_exact fuel w t s0 ptr size : readable w t ptr size -> 0 <= ptr -> 0 <= size < W64 -> ptr + size <= W64 -> fits s0 (size / 4096) ->
  size / 4096 <= 524288 -> size / 4096 <= Z.of_nat fuel -> exists s, cumul fuel w s0 ptr size = Ok s /\ sofar w t ptr (Z.to_nat (size / 4096)) s0 s.
Proof.
  intros R P Q L F B U. rewrite (cumul_unfold fuel w t s0 ptr size R P Q).
  destruct (loop_steps w t ptr size s0 (fuel - Z.to_nat (size / 4096)) R P L F (Z.to_nat (size / 4096)) ltac:(lia) ltac:(lia)) as (s & A & E).
  replace (Z.to_nat (size / 4096) + (fuel - Z.to_nat (size / 4096)))%nat with fuel in E by lia. exists s. split; [|exact A]. rewrite E.
  assert (X : Z.of_nat (Z.to_nat (size / 4096)) <? size / 4096 = false) by (apply Z.ltb_ge; lia).
  destruct (fuel - Z.to_nat (size / 4096))%nat; cbn [cumul_loop]; rewrite X; reflexivity.
Qed.
Lemma cumul_large fuel w t s0 ptr size : readable w t ptr size -> 0 <= ptr -> 0 <= size < W64 -> ptr + size <= W64 -> fits s0 (size / 4096) ->
  524288 < size / 4096 -> 524288 < Z.of_nat fuel -> e_present (t (ptr / 4096 + 524288)) = true -> cumul fuel w s0 ptr size = UB.
Proof.
  intros R P Q L F B U Ep. rewrite (cumul_unfold fuel w t s0 ptr size R P Q).
  destruct (loop_steps w t ptr size s0 (fuel - Z.to_nat 524288) R P L F (Z.to_nat 524288) ltac:(lia) ltac:(lia)) as (s & A & E).
  replace (Z.to_nat 524288 + (fuel - Z.to_nat 524288))%nat with fuel in E by lia. rewrite E.
  destruct (fuel - Z.to_nat 524288)%nat as [|g] eqn:Eg; [lia|]. cbn [cumul_loop]. rewrite Z2Nat.id by lia. destruct (Z.ltb_spec 524288 (size / 4096)); [|lia].
  rewrite add_small by lia. rewrite Ep. destruct R as (_ & _ & _ & _ & R). destruct (R 524288 ltac:(lia) Ep) as (-> & _). reflexivity.
Qed.
Lemma no_map fuel w s ptr size : w_map w = None -> 0 <= size < W64 ->
  exists s', stat_get fuel w s ptr size = Ok s' /\ st_total s' = 0 /\ st_mapped s' = size / 4096 /\ (forall k, st_pages s' k = 0) /\ (4096 <= size -> non_mapped s' = W64 - size / 4096).
Proof.
  intros E P. unfold stat_get, cumul. destruct (stat_pages ptr size) as [a b]. unfold read_pagemap. rewrite E. cbn [rbind]. eexists. split; [reflexivity|].
  unfold stat_reset, non_mapped. cbn [st_nodes st_total st_mapped st_pages]. rewrite add_small by lia. split; [reflexivity|]. split; [lia|]. split; [reflexivity|].
  intros Q. unfold sub64, w64. symmetry. apply Z.mod_unique with (q := -1); lia.
Qed.
Lemma no_move_pages fuel w t s ptr size : w_map w = Some t -> w_calloc w = true -> w_read w = true -> w_move_pages w = false -> 0 <= ptr < W64 -> 4096 <= size < W64 ->
  e_present (t (ptr / 4096)) = true -> e_order (t (ptr / 4096)) = 12 -> cumul (S fuel) w s ptr size = UB.
Proof.
  intros A B C D P Q E F. unfold cumul, stat_pages, PAGE. cbv zeta. unfold read_pagemap. rewrite A, B, C. cbn [rbind]. rewrite pages_n by lia.
  cbn [cumul_loop]. destruct (Z.ltb_spec 0 (size / 4096)); [|lia]. rewrite (add_small (ptr / 4096)) by lia. rewrite Z.add_0_r, E, F. cbn [Z.eqb]. cbv zeta.
  unfold node_of_page. rewrite D. reflexivity.
Qed.

(** ** Sums *)
Lemma sum_ext f g n : (forall i, 0 <= i < Z.of_nat n -> f i = g i) -> sum_upto f n = sum_upto g n.
Proof. induction n as [|n IH]; intros H; [reflexivity|]. cbn [sum_upto]. rewrite IH by (intros; apply H; lia). rewrite H by lia. reflexivity. Qed.
Lemma sum_upd f k n : 0 <= k < Z.of_nat n -> sum_upto (fun x => if x =? k then f x + 1 else f x) n = sum_upto f n + 1.
Proof.
  induction n as [|n IH]; intros H; [lia|]. cbn [sum_upto]. destruct (Z.eqb_spec (Z.of_nat n) k) as [E|E].
  - rewrite (sum_ext _ f); [lia|]. intros i Hi. destruct (Z.eqb_spec i k); [lia|reflexivity].
  - rewrite IH by lia. lia.
Qed.
Lemma sum_ge f n i : (forall i, 0 <= f i) -> 0 <= i < Z.of_nat n -> f i <= sum_upto f n.
Proof.
  intros P. assert (Q : forall n, 0 <= sum_upto f n) by (clear - P; induction n as [|n IH]; cbn [sum_upto]; [lia|specialize (P (Z.of_nat n)); lia]).
  induction n as [|n IH]; intros H; [lia|]. cbn [sum_upto]. destruct (Z.eq_dec i (Z.of_nat n)) as [->|N]; [specialize (Q n); lia|]. specialize (IH ltac:(lia)). specialize (P (Z.of_nat n)). lia.
Qed.
Record ST (s : nstat) : Prop := mkST { st_sum : node_sum s = st_mapped s; st_le : 0 <= st_mapped s <= st_total s; st_pos : forall k, 0 <= st_pages s k }.
Lemma ST_reset s : ST (stat_reset s).
Proof. split; cbn; [reflexivity|lia|lia]. Qed.
Lemma ST_init n : ST (stat_init n).
Proof. split; cbn; [reflexivity|lia|lia]. Qed.
Local Opaque sum_upto.
Lemma loop_ST fuel w t ptr n : forall i s s', 0 <= i -> ST s -> st_total s + Z.max 0 (n - i) < W64 -> cumul_loop fuel w t ptr n i s = Ok s' ->
  ST s' /\ st_total s' = st_total s + Z.max 0 (n - i).
Proof.
  induction fuel as [|fuel IH]; intros i s s' Pi [A B C] L H; cbn [cumul_loop] in H; destruct (Z.ltb_spec i n) as [D|D]; try discriminate.
  - injection H as <-. split; [split; assumption|lia].
  - rewrite (add_small (st_total s)) in H by lia. destruct (e_present (t i)).
    + destruct (e_order (t i) =? 12); [|discriminate]. cbv zeta in H. cbn [st_nodes st_total st_mapped st_pages] in H. rewrite (add_small (st_mapped s)) in H by lia.
      destruct (i * 4096 <=? INT_MAX); [|discriminate]. unfold count_node in H. set (k := node_of_page w (add64 ptr (i * 4096))) in *.
      destruct (Z.leb_spec 0 k) as [K1|K1]; [|discriminate]. destruct (Z.leb_spec k MAXNODE) as [K2|K2]; [|discriminate]. cbn [andb rbind st_nodes st_total st_mapped st_pages] in H.
      destruct (i =? INT_MAX); [discriminate|]. apply IH in H; [| lia | |cbn [st_total]; lia].
      * destruct H as (H1 & H2). cbn [st_total] in H2. split; [exact H1|lia].
      * assert (X : forall x, (if x =? k then add64 (st_pages s x) 1 else st_pages s x) = (if x =? k then st_pages s x + 1 else st_pages s x)).
        { intros x. destruct (Z.eqb_spec x k) as [->|_]; [|reflexivity]. apply add_small. pose proof (C k). unfold MAXNODE in K2. pose proof (sum_ge (st_pages s) 129 k C ltac:(lia)) as G.
          unfold node_sum in A. lia. }
        split; cbn [st_total st_mapped st_pages]; [|lia|].
        { unfold node_sum. cbn [st_pages]. rewrite (sum_ext _ (fun x => if x =? k then st_pages s x + 1 else st_pages s x)) by (intros x _; apply X).
          rewrite sum_upd by (unfold MAXNODE in K2; lia). unfold node_sum in A. lia. }
        { intros x. rewrite X. specialize (C x). destruct (x =? k); lia. }
    + cbn [rbind] in H. destruct (i =? INT_MAX); [discriminate|]. apply IH in H; [|lia| |cbn [st_total]; lia].
      * destruct H as (H1 & H2). cbn [st_total] in H2. split; [exact H1|lia].
      * split; cbn [st_total st_mapped st_pages]; [exact A|lia|exact C].
  - injection H as <-. split; [split; assumption|lia].
Qed.
Lemma cumul_ST fuel w s s' ptr size : w_map w <> None -> 0 <= ptr -> 0 <= size < W64 -> ST s -> st_total s + size / 4096 < W64 -> cumul fuel w s ptr size = Ok s' ->
  ST s' /\ st_total s' = st_total s + size / 4096.
Proof.
  intros N P Q I L. unfold cumul, stat_pages, PAGE. cbv zeta. unfold read_pagemap. destruct (w_map w) as [t|]; [|contradiction].
  destruct (w_calloc w); [|discriminate]. destruct (w_read w); [|discriminate]. cbn [rbind]. rewrite pages_n by lia. intros H.
  apply loop_ST in H; [|lia|exact I|lia]. destruct H as (H1 & H2). split; [exact H1|lia].
Qed.
Lemma pages_sum_pos l : (forall x, In x l -> 0 <= fst x /\ 0 <= snd x < W64) -> 0 <= pages_sum l.
Proof. induction l as [|x l IH]; intros H; [cbn; lia|]. cbn. specialize (IH (fun y I => H y (or_intror I))). destruct (H x (or_introl eq_refl)) as (_ & Q). unfold pages_sum in IH. lia. Qed.
Lemma cumul_all_ST fuel w : forall l s s', w_map w <> None -> (forall x, In x l -> 0 <= fst x /\ 0 <= snd x < W64) -> ST s -> st_total s + pages_sum l < W64 -> cumul_all fuel w l s = Ok s' ->
  ST s' /\ st_total s' = st_total s + pages_sum l.
Proof.
  induction l as [|x l IH]; intros s s' N A I L H; cbn [cumul_all] in H.
  - injection H as <-. split; [exact I|cbn; lia].
  - destruct (cumul fuel w s (fst x) (snd x)) as [s1| | |] eqn:E; cbn [rbind] in H; try discriminate.
    pose proof (pages_sum_pos l (fun y J => A y (or_intror J))) as PP. destruct (A x (or_introl eq_refl)) as (A1 & A2). cbn [pages_sum fold_right] in L. fold (pages_sum l) in L.
    destruct (cumul_ST fuel w s s1 _ _ N A1 A2 I ltac:(lia) E) as (I1 & T1). destruct (IH s1 s' N (fun y J => A y (or_intror J)) I1 ltac:(lia) H) as (I2 & T2).
    split; [exact I2|]. rewrite T2, T1. cbn [pages_sum fold_right]. fold (pages_sum l). lia.
Qed.

(** ** Without the page map *)
Lemma loop2_keeps fuel w ptr n : forall i s s', cumul2_loop fuel w ptr n i s = Ok s' -> st_total s' = st_total s /\ st_mapped s' = st_mapped s.
Proof.
  induction fuel as [|fuel IH]; intros i s s' H; cbn [cumul2_loop] in H; destruct (i <? n); try discriminate; try (injection H as <-; auto).
  cbv zeta in H. destruct (-1 <? node_of_page w (add64 ptr ((i * 4096) mod W32))).
  - unfold count_node in H. destruct ((0 <=? node_of_page w (add64 ptr ((i * 4096) mod W32))) && (node_of_page w (add64 ptr ((i * 4096) mod W32)) <=? MAXNODE)); [|discriminate].
    cbn [rbind] in H. apply IH in H. exact H.
  - cbn [rbind] in H. apply IH in H. exact H.
Qed.
Lemma check_useless fuel w s s' ptr size node ratio : stat_get2 fuel w s ptr size = Ok s' -> st_total s' = 0 /\ st_mapped s' = 0 /\ check_fails s' node ratio = false.
Proof.
  unfold stat_get2, cumul2. destruct (stat_pages ptr size) as [a b]. intros H. apply loop2_keeps in H. destruct H as (H1 & H2). cbn in H1, H2. split; [exact H1|]. split; [exact H2|].
  unfold check_fails. rewrite H2. reflexivity.
Qed.
Lemma node_range w p : -1 <= node_of_page w p <= MAXNODE.
Proof. unfold node_of_page, MAXNODE. destruct (w_move_pages w); [|lia]. destruct (Z.leb_spec (-1) (w_status w p)); destruct (Z.ltb_spec (w_status w p) 128); cbn [andb]; lia. Qed.
Lemma count_node_ok s k : -1 < k <= MAXNODE -> exists s', count_node s k = Ok s'.
Proof. intros H. unfold count_node. replace ((0 <=? k) && (k <=? MAXNODE)) with true by (symmetry; apply andb_true_iff; split; apply Z.leb_le; lia). eexists. reflexivity. Qed.
Lemma loop2_endless w ptr n : W32 <= n -> forall fuel i s, 0 <= i < W32 -> cumul2_loop fuel w ptr n i s = OutOfFuel.
Proof.
  intros N. induction fuel as [|fuel IH]; intros i s P; cbn [cumul2_loop]; destruct (Z.ltb_spec i n); try lia; [reflexivity|]. cbv zeta.
  assert (X : exists s', (if -1 <? node_of_page w (add64 ptr ((i * 4096) mod W32)) then count_node s (node_of_page w (add64 ptr ((i * 4096) mod W32))) else Ok s) = Ok s').
  { destruct (Z.ltb_spec (-1) (node_of_page w (add64 ptr ((i * 4096) mod W32)))) as [D|D]; [|eexists; reflexivity]. apply count_node_ok. pose proof (node_range w (add64 ptr ((i * 4096) mod W32))). lia. }
  destruct X as [s' ->]. cbn [rbind]. apply IH. apply Z.mod_pos_bound. unfold W32. lia.
Qed.
Lemma cumul2_endless fuel w s ptr size : 0 <= ptr -> 0 <= size < W64 -> W32 <= size / 4096 -> cumul2 fuel w s ptr size = OutOfFuel.
Proof. intros P Q N. unfold cumul2, stat_pages, PAGE. cbv zeta. rewrite pages_n by lia. apply loop2_endless; [exact N|]. unfold W32. lia. Qed.
(** Only the first 4 GB are looked at. *)
Lemma loop2_low w ptr n k : 0 <= ptr -> (forall p, 0 <= p < 1048576 -> node_of_page w (add64 ptr (p * 4096)) <> k) ->
  forall fuel i s s', cumul2_loop fuel w ptr n i s = Ok s' -> st_pages s' k = st_pages s k.
Proof.
  intros P N. induction fuel as [|fuel IH]; intros i s s' H; cbn [cumul2_loop] in H; destruct (i <? n); try discriminate; try (injection H as <-; reflexivity).
  cbv zeta in H. assert (M : (i * 4096) mod W32 = (i mod 1048576) * 4096) by (unfold W32; lia). rewrite M in H.
  specialize (N (i mod 1048576) ltac:(lia)). set (q := node_of_page w (add64 ptr (i mod 1048576 * 4096))) in *. destruct (-1 <? q).
  - unfold count_node in H. destruct ((0 <=? q) && (q <=? MAXNODE)); [|discriminate]. cbn [rbind] in H. apply IH in H. rewrite H. cbn [st_pages]. destruct (Z.eqb_spec k q); [congruence|reflexivity].
  - cbn [rbind] in H. apply IH in H. exact H.
Qed.
Lemma cumul2_low fuel w s s' ptr size k : 0 <= ptr -> (forall p, 0 <= p < 1048576 -> node_of_page w (add64 ptr (p * 4096)) <> k) -> stat_get2 fuel w s ptr size = Ok s' -> st_pages s' k = 0.
Proof. intros P N. unfold stat_get2, cumul2. destruct (stat_pages ptr size) as [a b]. intros H. apply (loop2_low w ptr _ k P N) in H. exact H. Qed.
Lemma cumul2_exact fuel w s ptr size : w_move_pages w = true -> 0 <= ptr -> 0 <= size < W64 -> ptr + size <= W64 -> size / 4096 <= 1048576 -> size / 4096 <= Z.of_nat fuel ->
  exists s', stat_get2 fuel w s ptr size = Ok s' /\ forall k, 0 <= k <= MAXNODE -> st_pages s' k = count (known_on w ptr k) (Z.to_nat (size / 4096)).
Proof.
  intros M P Q L B U. unfold stat_get2, cumul2, stat_pages, PAGE. cbv zeta. rewrite pages_n by lia. set (n := size / 4096) in *.
  assert (G : forall d j s1, Z.of_nat (j + d) = n -> (forall k, 0 <= k <= MAXNODE -> st_pages s1 k = count (known_on w ptr k) j) -> forall f, (d <= f)%nat ->
    exists s', cumul2_loop f w ptr n (Z.of_nat j) s1 = Ok s' /\ forall k, 0 <= k <= MAXNODE -> st_pages s' k = count (known_on w ptr k) (j + d)).
  { induction d as [|d IH]; intros j s1 E K f Lf.
    - exists s1. split; [|rewrite Nat.add_0_r; exact K]. assert (X : Z.of_nat j <? n = false) by (apply Z.ltb_ge; lia). destruct f; cbn [cumul2_loop]; rewrite X; reflexivity.
    - destruct f as [|f]; [lia|]. cbn [cumul2_loop]. destruct (Z.ltb_spec (Z.of_nat j) n); [|lia]. cbv zeta.
      replace ((Z.of_nat j * 4096) mod W32) with (Z.of_nat j * 4096) by (symmetry; apply Z.mod_small; unfold W32; lia). replace ((Z.of_nat j + 1) mod W32) with (Z.of_nat (S j)) by (rewrite Z.mod_small; unfold W32; lia).
      rewrite add_small by (subst n; lia). replace (j + S d)%nat with (S j + d)%nat by lia.
      destruct (Z.eqb_spec (w_status w (ptr + Z.of_nat j * 4096)) (-1)) as [D|D].
      + replace (node_of_page w (ptr + Z.of_nat j * 4096)) with (-1) by (unfold node_of_page; rewrite M, D; reflexivity). cbn [Z.ltb Z.compare Pos.compare Pos.compare_cont rbind].
        apply IH; [lia| |lia]. intros k Hk. rewrite count_S. unfold known_on at 2. rewrite D, Z.eqb_refl. cbn [negb andb]. rewrite K by exact Hk. lia.
      + destruct (node_answer w ptr (Z.of_nat j) M D) as (k & Ek & Rk & O). rewrite Ek. destruct (Z.ltb_spec (-1) k); [|lia]. unfold count_node.
        replace ((0 <=? k) && (k <=? MAXNODE)) with true by (symmetry; apply andb_true_iff; split; apply Z.leb_le; lia). cbn [rbind]. apply IH; [lia| |lia].
        intros x Hx. cbn [st_pages]. rewrite count_S. unfold known_on at 2. destruct (Z.eqb_spec (w_status w (ptr + Z.of_nat j * 4096)) (-1)); [contradiction|]. cbn [negb andb].
        rewrite (O x Hx), (K x Hx). destruct (x =? k); [|lia]. apply add_small. pose proof (count_le (known_on w ptr x) j). lia. }
  destruct (G (Z.to_nat n) 0%nat (stat_reset s) ltac:(lia) ltac:(intros k _; reflexivity) fuel ltac:(lia)) as (s' & E & K). exists s'. split; [exact E|exact K].
Qed.

(** ** As stated *)
Lemma fits_reset s n : 0 <= n < W64 -> fits (stat_reset s) n.
Proof. intros H. unfold fits, stat_reset. cbn [st_total st_mapped st_pages]. split; [lia|]. split; [lia|]. split; [lia|]. split; [lia|]. intros k. lia. Qed.
Lemma get_exact fuel w t s ptr size : readable w t ptr size -> 0 <= ptr -> 0 <= size < W64 -> ptr + size <= W64 -> size / 4096 <= 524288 -> size / 4096 <= Z.of_nat fuel ->
  exists s', stat_get fuel w s ptr size = Ok s' /\ st_total s' = size / 4096 /\ st_mapped s' = count (present t ptr) (Z.to_nat (size / 4096)) /\
    forall k, 0 <= k <= MAXNODE -> st_pages s' k = count (present_on w t ptr k) (Z.to_nat (size / 4096)).
Proof.
  intros R P Q L B U. destruct (cumul_exact fuel w t (stat_reset s) ptr size R P Q L (fits_reset s (size / 4096) ltac:(lia)) B U) as (s' & E & [A1 A2 A3 A4]).
  exists s'. split; [exact E|]. cbn [stat_reset st_total st_mapped st_pages] in *. split; [lia|]. split; [lia|].
  intros k K. rewrite A4. replace ((0 <=? k) && (k <=? MAXNODE)) with true by (symmetry; apply andb_true_iff; split; apply Z.leb_le; lia). lia.
Qed.
Lemma get_sum fuel w s s' ptr size : w_map w <> None -> 0 <= ptr -> 0 <= size < W64 -> stat_get fuel w s ptr size = Ok s' ->
  node_sum s' = st_mapped s' /\ st_mapped s' <= st_total s' /\ st_total s' = size / 4096.
Proof.
  intros N P Q H. destruct (cumul_ST fuel w (stat_reset s) s' ptr size N P Q (ST_reset s) ltac:(cbn; lia) H) as ([A B C] & T). cbn in T. split; [exact A|]. split; [lia|lia].
Qed.
Lemma chain_sum fuel w l nodes s' : w_map w <> None -> (forall x, In x l -> 0 <= fst x /\ 0 <= snd x < W64) -> pages_sum l < W64 -> cumul_all fuel w l (stat_init nodes) = Ok s' ->
  node_sum s' = st_mapped s' /\ st_mapped s' <= st_total s' /\ st_total s' = pages_sum l.
Proof.
  intros N A L H. destruct (cumul_all_ST fuel w l (stat_init nodes) s' N A (ST_init nodes) ltac:(cbn; lia) H) as ([X B C] & T). cbn in T. split; [exact X|]. split; [lia|lia].
Qed.
Lemma get_large fuel w t s ptr size : readable w t ptr size -> 0 <= ptr -> 0 <= size < W64 -> ptr + size <= W64 ->
  524288 < size / 4096 -> 524288 < Z.of_nat fuel -> e_present (t (ptr / 4096 + 524288)) = true -> stat_get fuel w s ptr size = UB.
Proof. intros R P Q L B U E. exact (cumul_large fuel w t (stat_reset s) ptr size R P Q L (fits_reset s (size / 4096) ltac:(lia)) B U E). Qed.

(** ** The check, and pages of another size *)
Lemma check_exact fuel w t s ptr size node ratio : readable w t ptr size -> 0 <= ptr -> 0 <= size < W64 -> ptr + size <= W64 -> size / 4096 <= 524288 -> size / 4096 <= Z.of_nat fuel ->
  0 <= node < MAXNODE ->
  exists s', stat_get fuel w s ptr size = Ok s' /\
    (check_fails s' node ratio = true <->
     0 < count (present t ptr) (Z.to_nat (size / 4096)) /\ 100 * count (present_on w t ptr node) (Z.to_nat (size / 4096)) < ratio * count (present t ptr) (Z.to_nat (size / 4096))).
Proof.
  intros R P Q L B U N. destruct (get_exact fuel w t s ptr size R P Q L B U) as (s' & E & _ & M & K). exists s'. split; [exact E|].
  unfold check_fails. rewrite M, (K node ltac:(lia)). pose proof (count_le (present t ptr) (Z.to_nat (size / 4096))) as C.
  set (a := count (present t ptr) (Z.to_nat (size / 4096))) in *. set (b := count (present_on w t ptr node) (Z.to_nat (size / 4096))) in *.
  destruct (Z.eqb_spec a 0) as [Z0|Z0].
  - split; [discriminate|lia].
  - rewrite Z.ltb_lt. split; [intros H; split; [lia|exact H]|intros (_ & H); exact H].
Qed.
Lemma loop_order fuel w t ptr n : forall i s s', cumul_loop fuel w t ptr n i s = Ok s' -> forall j, i <= j < n -> e_present (t j) = true -> e_order (t j) = 12.
Proof.
  induction fuel as [|fuel IH]; intros i s s' H j J E; cbn [cumul_loop] in H; destruct (Z.ltb_spec i n) as [D|D]; try discriminate; try lia.
  assert (X : forall a, (if i =? INT_MAX then UB else cumul_loop fuel w t ptr n (i + 1) a) = Ok s' -> i < j -> e_order (t j) = 12).
  { intros a G L. destruct (i =? INT_MAX); [discriminate|]. exact (IH (i + 1) a s' G j ltac:(lia) E). }
  destruct (e_present (t i)) eqn:Ei.
  - destruct (Z.eqb_spec (e_order (t i)) 12) as [O|O]; [|discriminate]. destruct (Z.eq_dec i j) as [<-|Nj]; [exact O|].
    cbv zeta in H. destruct (i * 4096 <=? INT_MAX); [|discriminate]. match type of H with rbind ?c _ = _ => destruct c as [a| | |] end; cbn [rbind] in H; try discriminate. exact (X a H ltac:(lia)).
  - cbn [rbind] in H. apply (X _ H). destruct (Z.eq_dec i j) as [<-|Nj]; [congruence|lia].
Qed.
Lemma get_order fuel w t s s' ptr size i : w_map w = Some t -> 0 <= ptr -> 0 <= size < W64 -> ptr + size <= W64 -> stat_get fuel w s ptr size = Ok s' ->
  0 <= i < size / 4096 -> present t ptr i = true -> e_order (t (ptr / 4096 + i)) = 12.
Proof.
  intros A P Q L H I E. unfold stat_get, cumul, stat_pages, PAGE in H. cbv zeta in H. unfold read_pagemap in H. rewrite A in H.
  destruct (w_calloc w); [|discriminate]. destruct (w_read w); [|discriminate]. cbn [rbind] in H. rewrite pages_n in H by lia.
  pose proof (loop_order _ _ _ _ _ _ _ _ H i ltac:(lia)) as X. cbv beta in X. rewrite add_small in X by lia. exact (X E).
Qed.
