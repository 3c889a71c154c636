(** Invariant of the light memory source. *)
From Verif Require Import Word Res Mem ChainModel LightModel LightSpec.
From Coq Require Import ZArith List Bool Lia Permutation.
Import ListNotations.
Open Scope Z_scope.
Local Arguments ld : simpl never.
Local Arguments sto : simpl never.

Lemma disj_sym x y : disj x y -> disj y x.
Proof. unfold disj. tauto. Qed.

Lemma acc_in : forall l b z a n, In (b, z) l -> b <= a -> a + n <= b + z -> accb l a n = true.
Proof. intros l b z a n H H1 H2. unfold accb. apply existsb_exists. exists (b, z). split; [exact H|]. lia. Qed.

Lemma rd_ok : forall s b z a n, In (b, z) (lmap s) -> b <= a -> a + Z.of_nat n <= b + z -> rd a n s = Ok (ld (lmem s) a n).
Proof. intros. unfold rd. rewrite (acc_in (lmap s) b z a (Z.of_nat n)) by assumption. reflexivity. Qed.
Lemma wr_ok : forall s b z a n v, In (b, z) (lmap s) -> b <= a -> a + Z.of_nat n <= b + z -> wr a n v s = Ok (lset_mem s (sto (lmem s) a n v)).
Proof. intros. unfold wr. rewrite (acc_in (lmap s) b z a (Z.of_nat n)) by assumption. reflexivity. Qed.

Lemma setup_header_ok : forall s b z v, In (b, z) (lmap s) -> 24 <= z -> 0 <= v < 2 ^ 56 ->
  exists m', setup_header b v s = Ok (lset_mem s m') /\ (forall x, x < b \/ b + 24 <= x -> m' x = lmem s x) /\ ld m' b 7 = v /\ ld m' (b + 16) 8 = 0.
Proof.
  intros s b z v H Z V. change (2 ^ 56) with (256 ^ Z.of_nat 7) in V. unfold setup_header.
  rewrite (wr_ok s b z b 7) by (try assumption; cbn; lia). cbn [rbind].
  match goal with |- context [wr (b + 7) 1 b ?t] => rewrite (wr_ok t b z (b + 7) 1) by (try assumption; cbn; lia) end. cbn [rbind].
  match goal with |- context [wr (b + 15) 1 ?w ?t] => rewrite (wr_ok t b z (b + 15) 1) by (try assumption; cbn; lia) end. cbn [rbind].
  match goal with |- context [wr (b + 8) 7 0 ?t] => rewrite (wr_ok t b z (b + 8) 7) by (try assumption; cbn; lia) end. cbn [rbind].
  match goal with |- context [wr (b + 16) 8 0 ?t] => rewrite (wr_ok t b z (b + 16) 8) by (try assumption; cbn; lia) end.
  eexists. split; [reflexivity|]. unfold lset_mem. cbn [lmem]. split; [|split].
  - intros x Hx. rewrite !sto_other by lia. reflexivity.
  - rewrite !ld_sto_other by lia. apply ld_sto_same_small. exact V.
  - apply ld_sto_same_small. cbn. lia.
Qed.

(** The cache list from address [p]. *)
Fixpoint links (m : mem) (p : Z) (C : list (Z * Z)) : Prop :=
  match C with
  | [] => p = 0
  | (b, n) :: C => p = b /\ ld m (b + 8) 8 = n /\ links m (ld m b 8) C
  end.
Lemma links_frame : forall C m m' p, (forall b n, In (b, n) C -> forall x, b <= x < b + 16 -> m' x = m x) -> links m p C -> links m' p C.
Proof.
  induction C as [|[b n] C IH]; intros m m' p F H; cbn in *; [exact H|]. destruct H as (-> & H1 & H2). split; [reflexivity|].
  assert (E1 : ld m' (b + 8) 8 = ld m (b + 8) 8) by (apply ld_ext; intros x Hx; apply (F b n); [left; reflexivity|lia]).
  assert (E2 : ld m' b 8 = ld m b 8) by (apply ld_ext; intros x Hx; apply (F b n); [left; reflexivity|lia]).
  rewrite E1, E2. split; [exact H1|]. apply (IH m); [|exact H2]. intros b' n' Hin. apply (F b' n'). right. exact Hin.
Qed.

Definition last_base (C : list (Z * Z)) (d : Z) : Z := fold_left (fun _ x => fst x) C d.
Lemma last_base_snoc C b n d : last_base (C ++ [(b, n)]) d = b.
Proof. unfold last_base. rewrite fold_left_app. reflexivity. Qed.

Definition okblk (x : Z * Z) : Prop := 0 < fst x /\ 0 < snd x /\ fst x + snd x <= 140737488355328 /\ snd x mod 4096 = 0.
Lemma okblk_size x : okblk x -> 4096 <= snd x.
Proof. unfold okblk. lia. Qed.

Lemma find_loop_ok : forall C fuel size prev cur s, links (lmem s) cur C -> (forall x, In x C -> In x (lmap s) /\ okblk x) -> (length C < fuel)%nat ->
  ((forall x, In x C -> snd x <> size) /\ find_loop fuel size prev cur s = Ok (0, last_base C prev)) \/
  (exists C1 b C2, C = C1 ++ (b, size) :: C2 /\ find_loop fuel size prev cur s = Ok (b, last_base C1 prev) /\ forall x, In x C1 -> snd x <> size).
Proof.
  induction C as [|[b n] C IH]; intros fuel size prev cur s L H F; (destruct fuel as [|fuel]; [inversion F|]); cbn [find_loop].
  - cbn in L. subst cur. left. split; [intros x []|reflexivity].
  - cbn in L. destruct L as (-> & L1 & L2). destruct (H (b, n) (or_introl eq_refl)) as [Hm Ho]. pose proof (okblk_size _ Ho) as Hs. unfold okblk in Ho. cbn [fst snd] in *.
    destruct (Z.eqb_spec b 0) as [E|E]; [lia|].
    rewrite (rd_ok s b n (b + 8) 8) by (try assumption; cbn; lia). cbn [rbind]. rewrite L1.
    destruct (Z.eqb_spec n size) as [En|En].
    + right. exists [], b, C. split; [rewrite En; reflexivity|]. split; [reflexivity|intros x []].
    + rewrite (rd_ok s b n b 8) by (try assumption; cbn; lia). cbn [rbind].
      destruct (IH fuel size b (ld (lmem s) b 8) s L2) as [[A B]|(C1 & b' & C2 & A & B & D)].
      * intros x Hx. apply H. right. exact Hx.
      * cbn in F. lia.
      * left. split; [|exact B]. intros x [<-|Hx]; [exact En|exact (A x Hx)].
      * right. exists ((b, n) :: C1), b', C2. split; [rewrite A; reflexivity|]. split; [exact B|]. intros x [<-|Hx]; [exact En|exact (D x Hx)].
Qed.

(** Taking an element out of the list. *)
Lemma links_mid : forall C1 m p b n C2, links m p (C1 ++ (b, n) :: C2) -> links m (ld m b 8) C2 /\ ld m (b + 8) 8 = n /\
  (C1 = [] -> p = b).
Proof.
  induction C1 as [|[b' n'] C1 IH]; intros m p b n C2 H; cbn in H.
  - destruct H as (-> & H1 & H2). auto.
  - destruct H as (-> & H1 & H2). destruct (IH _ _ _ _ _ H2) as (A & B & _). split; [exact A|]. split; [exact B|discriminate].
Qed.
Lemma links_unlink : forall C1 m p pb pn b n C2,
  (forall x y, In x (C1 ++ (pb, pn) :: (b, n) :: C2) -> In y (C1 ++ (pb, pn) :: (b, n) :: C2) -> x = y \/ disj x y) ->
  (forall x, In x (C1 ++ (pb, pn) :: (b, n) :: C2) -> okblk x) -> NoDup (C1 ++ (pb, pn) :: (b, n) :: C2) ->
  0 <= ld m b 8 < 2 ^ 64 ->
  links m p (C1 ++ (pb, pn) :: (b, n) :: C2) -> links (sto m pb 8 (ld m b 8)) p (C1 ++ (pb, pn) :: C2).
Proof.
  intros C1 m p pb pn b n C2 A O N V. change (2 ^ 64) with (256 ^ Z.of_nat 8) in V.
  assert (OT : forall x, In x (C1 ++ (b, n) :: C2) -> forall y, fst x <= y < fst x + 16 -> sto m pb 8 (ld m b 8) y = m y).
  { intros x Hx y Hy. apply sto_other. assert (Hx' : In x (C1 ++ (pb, pn) :: (b, n) :: C2)).
    { apply in_app_or in Hx. apply in_or_app. destruct Hx as [Hx|Hx]; [left; exact Hx|right; right; exact Hx]. }
    assert (Hp : In (pb, pn) (C1 ++ (pb, pn) :: (b, n) :: C2)) by (apply in_or_app; right; left; reflexivity).
    assert (NE : x <> (pb, pn)). { intros ->. apply NoDup_remove_2 in N. contradiction. }
    destruct (A x (pb, pn) Hx' Hp) as [E|D]; [contradiction|]. pose proof (okblk_size _ (O _ Hx')) as S1. pose proof (okblk_size _ (O _ Hp)) as S2.
    unfold disj in D. cbn [fst snd] in *. cbn. lia. }
  assert (SZ : 4096 <= pn). { apply (okblk_size (pb, pn)). apply O. apply in_or_app. right. left. reflexivity. }
  assert (L2 : forall x, In x C2 -> forall y, fst x <= y < fst x + 16 -> sto m pb 8 (ld m b 8) y = m y).
  { intros x Hx. apply OT. apply in_or_app. right. right. exact Hx. }
  assert (L1 : forall x, In x C1 -> forall y, fst x <= y < fst x + 16 -> sto m pb 8 (ld m b 8) y = m y).
  { intros x Hx. apply OT. apply in_or_app. left. exact Hx. }
  clear OT A O N. revert p. induction C1 as [|[b1 n1] C1 IH]; intros p L.
  - cbn in L |- *. destruct L as (-> & H1 & H2 & H3 & H4). split; [reflexivity|]. split; [rewrite ld_sto_other by (cbn; lia); exact H1|].
    rewrite ld_sto_same_small by exact V. apply (links_frame C2 m); [|exact H4]. intros b' n' Hin x Hx. apply (L2 (b', n') Hin). exact Hx.
  - cbn in L. destruct L as (-> & H1 & H2). cbn. split; [reflexivity|].
    assert (E : forall y, b1 <= y < b1 + 16 -> sto m pb 8 (ld m b 8) y = m y) by (apply (L1 (b1, n1)); left; reflexivity).
    split.
    + etransitivity; [apply ld_ext; intros y Hy; apply E; cbn in Hy; lia|exact H1].
    + replace (ld (sto m pb 8 (ld m b 8)) b1 8) with (ld m b1 8) by (symmetry; apply ld_ext; intros y Hy; apply E; cbn in Hy; lia).
      apply IH; [|exact H2]. intros x Hx. apply L1. right. exact Hx.
Qed.

(** Disjoint ranges of a bounded space have a bounded total. *)
Lemma total_app l1 l2 : total (l1 ++ l2) = total l1 + total l2.
Proof. induction l1 as [|[b n] l1 IH]; cbn; [reflexivity|]. rewrite IH. lia. Qed.
Lemma total_perm l1 l2 : Permutation l1 l2 -> total l1 = total l2.
Proof. induction 1 as [|[b n] l l' P IH|[b n] [b' n'] l|l l' l'' P1 IH1 P2 IH2]; cbn; lia. Qed.
Lemma max_split : forall l : list (Z * Z), l <> [] -> exists l1 x l2, l = l1 ++ x :: l2 /\ forall y, In y l -> fst y <= fst x.
Proof.
  induction l as [|a l IH]; [congruence|intros _]. destruct l as [|c l].
  - exists [], a, []. split; [reflexivity|]. intros y [<-|[]]. lia.
  - destruct IH as (l1 & x & l2 & E & M); [discriminate|]. destruct (Z_le_dec (fst a) (fst x)) as [H|H].
    + exists (a :: l1), x, l2. rewrite E. split; [reflexivity|]. intros y [<-|Hy]; [exact H|]. apply M. rewrite E. exact Hy.
    + exists [], a, (c :: l). split; [reflexivity|]. intros y [<-|Hy]; [lia|]. specialize (M y Hy). lia.
Qed.
Lemma total_bound : forall k l M, length l = k -> NoDup l -> (forall x y, In x l -> In y l -> x = y \/ disj x y) ->
  (forall x, In x l -> 0 < fst x /\ 0 < snd x /\ fst x + snd x <= M) -> 0 <= M -> 0 <= total l <= M.
Proof.
  induction k as [|k IH]; intros l M Hk N A O HM.
  - destruct l; [cbn; lia|discriminate].
  - destruct (max_split l) as (l1 & x & l2 & E & MX); [intros ->; discriminate|]. subst l.
    assert (Hx : In x (l1 ++ x :: l2)) by (apply in_or_app; right; left; reflexivity).
    assert (SUB : forall y, In y (l1 ++ l2) -> In y (l1 ++ x :: l2)).
    { intros y Hy. apply in_app_or in Hy. apply in_or_app. destruct Hy; [left; assumption|right; right; assumption]. }
    destruct (O x Hx) as (X1 & X2 & X3).
    assert (B : 0 <= total (l1 ++ l2) <= fst x).
    { apply IH.
      - rewrite app_length in *. cbn in Hk. lia.
      - exact (NoDup_remove_1 _ _ _ N).
      - intros y z Hy Hz. apply A; apply SUB; assumption.
      - intros y Hy. destruct (O y (SUB y Hy)) as (Y1 & Y2 & Y3). split; [exact Y1|]. split; [exact Y2|].
        destruct (A y x (SUB y Hy) Hx) as [->|D]; [exfalso; exact (NoDup_remove_2 _ _ _ N Hy)|].
        specialize (MX y (SUB y Hy)). unfold disj in D. lia.
      - lia. }
    rewrite total_app in *. destruct x as [xb xn]. cbn [total fst snd] in *. lia.
Qed.

(** The invariant: [C] is the cache. *)
Record LInv (s : ls) (out C : list (Z * Z)) : Prop := {
  li_perm : Permutation (lmap s) (C ++ out);
  li_nodup : NoDup (lmap s);
  li_disj : forall x y, In x (lmap s) -> In y (lmap s) -> x = y \/ disj x y;
  li_ok : forall x, In x (lmap s) -> okblk x;
  li_links : links (lmem s) (lcache s) C;
  li_hdr : forall b n, In (b, n) out -> ld (lmem s) b 7 = n;
  li_sz : lsz s = total C;
  li_cnt : lcnt s = Z.of_nat (length out) }.

Lemma linv_init m : LInv (ls0 m) [] [].
Proof. constructor; cbn; try (intros; contradiction); try constructor; reflexivity. Qed.

Lemma li_in_C s out C x : LInv s out C -> In x C -> In x (lmap s).
Proof. intros I H. apply (Permutation_in x (Permutation_sym (li_perm _ _ _ I))). apply in_or_app. left. exact H. Qed.
Lemma li_in_out s out C x : LInv s out C -> In x out -> In x (lmap s).
Proof. intros I H. apply (Permutation_in x (Permutation_sym (li_perm _ _ _ I))). apply in_or_app. right. exact H. Qed.
Lemma li_nd s out C : LInv s out C -> NoDup (C ++ out).
Proof. intros I. exact (Permutation_NoDup (li_perm _ _ _ I) (li_nodup _ _ _ I)). Qed.
Lemma li_bound s out C C' : LInv s out C -> (forall x, In x C' -> In x (lmap s)) -> NoDup C' -> 0 <= total C' <= 140737488355328.
Proof.
  intros I H N. apply (total_bound (length C') C' 140737488355328 eq_refl N).
  - intros x y Hx Hy. apply (li_disj _ _ _ I); apply H; assumption.
  - intros x Hx. destruct (li_ok _ _ _ I x (H x Hx)) as (H1 & H2 & H3 & _). auto.
  - lia.
Qed.
Lemma nodup_app_inv : forall A (l1 l2 : list A), NoDup (l1 ++ l2) -> NoDup l1 /\ NoDup l2 /\ forall x, In x l1 -> ~ In x l2.
Proof.
  induction l1 as [|a l1 IH]; intros l2 N; cbn in N; [split; [constructor|split; [exact N|intros x []]]|].
  inversion N as [|? ? H1 H2]; subst. destruct (IH l2 H2) as (A1 & A2 & A3). split; [constructor; [|exact A1]|split; [exact A2|]].
  - intros H. apply H1. apply in_or_app. left. exact H.
  - intros x [<-|Hx]; [|exact (A3 x Hx)]. intros H. apply H1. apply in_or_app. right. exact H.
Qed.

(** Same base, same segment. *)
Lemma same_base s out C x y : LInv s out C -> In x (lmap s) -> In y (lmap s) -> fst x = fst y -> x = y.
Proof.
  intros I Hx Hy E. destruct (li_disj _ _ _ I x y Hx Hy) as [H|H]; [exact H|]. destruct (li_ok _ _ _ I x Hx) as (_ & X & _).
  destruct (li_ok _ _ _ I y Hy) as (_ & Y & _). unfold disj in H. lia.
Qed.

(** A request served by the cache. *)
Lemma find_ok : forall s out C size fuel, LInv s out C -> (length C < fuel)%nat -> 0 < size ->
  ((forall x, In x C -> snd x <> size) /\ find_in_cache fuel size s = Ok (0, s)) \/
  (exists b s' C', find_in_cache fuel size s = Ok (b, s') /\ In (b, size) C /\ LInv s' ((b, size) :: out) C' /\ lmap s' = lmap s /\ 0 < b /\
     ld (lmem s') (b + 16) 8 = 0 /\
     (forall x, In x out -> forall y, fst x <= y < fst x + snd x -> lmem s' y = lmem s y) /\ total C' <= total C /\
     exists C1 C2, C = C1 ++ (b, size) :: C2 /\ C' = C1 ++ C2 /\ forall x, In x C1 -> snd x <> size).
Proof.
  intros s out C size fuel I F Hs.
  destruct (find_loop_ok C fuel size 0 (lcache s) s (li_links _ _ _ I)) as [[A B]|(C1 & b & C2 & A & B & FST)].
  - intros x Hx. pose proof (li_in_C s out C x I Hx) as Hm. split; [exact Hm|exact (li_ok _ _ _ I x Hm)].
  - exact F.
  - left. split; [exact A|]. unfold find_in_cache. rewrite B. reflexivity.
  - right. unfold find_in_cache. rewrite B. cbn [rbind].
    assert (HbC : In (b, size) C) by (rewrite A; apply in_or_app; right; left; reflexivity).
    assert (Hbm : In (b, size) (lmap s)) by exact (li_in_C s out C _ I HbC).
    pose proof (li_ok _ _ _ I _ Hbm) as Ob. pose proof (okblk_size _ Ob) as Sb. unfold okblk in Ob. cbn [fst snd] in *.
    destruct (Z.eqb_spec b 0) as [Zb|Zb]; [lia|].
    rewrite (rd_ok s b size b 8) by (try assumption; cbn; lia). cbn [rbind].
    pose proof (li_links _ _ _ I) as L. rewrite A in L. destruct (links_mid _ _ _ _ _ _ L) as (LM1 & LM2 & LM3).
    set (m := lmem s) in *. set (nx := ld m b 8) in *.
    assert (Hnx : 0 <= nx < 2 ^ 64) by (unfold nx; apply (ld_range m 8 b)).
    pose proof (li_nd s out C I) as ND. destruct (nodup_app_inv _ _ _ ND) as (NDC & NDO & NDX).
    (* unlink *)
    assert (U : exists s1, (if last_base C1 0 =? 0 then Ok (lset_cache s nx) else wr (last_base C1 0) 8 nx s) = Ok s1 /\
      lmap s1 = lmap s /\ lsz s1 = lsz s /\ lcnt s1 = lcnt s /\ links (lmem s1) (lcache s1) (C1 ++ C2) /\
      (forall x, In x ((b, size) :: out) -> forall y, fst x <= y < fst x + snd x -> lmem s1 y = m y)).
    { destruct C1 as [|[p1 q1] C1'] using rev_ind.
      - cbn [last_base fold_left Z.eqb]. exists (lset_cache s nx). cbn. repeat split; try reflexivity. exact LM1.
      - clear IHC1'. rewrite last_base_snoc. rewrite <- app_assoc in *. cbn [app] in *.
        assert (HpC : In (p1, q1) C) by (rewrite A; apply in_or_app; right; left; reflexivity).
        assert (Hpm : In (p1, q1) (lmap s)) by exact (li_in_C s out C _ I HpC).
        pose proof (li_ok _ _ _ I _ Hpm) as Op. pose proof (okblk_size _ Op) as Sp. unfold okblk in Op. cbn [fst snd] in *.
        destruct (Z.eqb_spec p1 0); [lia|]. rewrite (wr_ok s p1 q1 p1 8) by (try assumption; cbn; lia).
        exists (lset_mem s (sto m p1 8 nx)). cbn [lset_mem lmap lsz lcnt lmem lcache]. repeat split; try reflexivity.
        + apply links_unlink with (n := size); try assumption.
          * intros x y Hx Hy. rewrite <- A in Hx, Hy. apply (li_disj _ _ _ I); apply (li_in_C s out C); assumption.
          * intros x Hx. rewrite <- A in Hx. apply (li_ok _ _ _ I). apply (li_in_C s out C); assumption.
          * rewrite <- A. exact NDC.
        + intros x Hx y Hy. apply sto_other. assert (Hxm : In x (lmap s)).
          { destruct Hx as [<-|Hx]; [exact Hbm|exact (li_in_out s out C x I Hx)]. }
          destruct (li_disj _ _ _ I x (p1, q1) Hxm Hpm) as [E|D].
          * exfalso. subst x. destruct Hx as [E|Hx]; [|exact (NDX _ HpC Hx)]. rewrite A in NDC. rewrite E in NDC.
            apply NoDup_remove_2 in NDC. apply NDC. apply in_or_app. right. left. reflexivity.
          * unfold disj in D. cbn [fst snd] in *. cbn. lia. }
    destruct U as (s1 & -> & U1 & U2 & U3 & U4 & U5). cbn [rbind]. set (s2 := lset_cnt s1 (lcnt s1 + 1)).
    assert (Hb2 : In (b, size) (lmap s2)) by (unfold s2; cbn; rewrite U1; exact Hbm).
    assert (Z2 : ld (lmem s2) (b + 8) 8 = size).
    { unfold s2. cbn [lmem lset_cnt]. rewrite <- LM2. apply ld_ext. intros y Hy. apply (U5 (b, size)); [left; reflexivity|]. cbn [fst snd]. cbn in Hy. lia. }
    rewrite (rd_ok s2 b size (b + 8) 8) by (try assumption; cbn; lia). cbn [rbind]. rewrite Z2.
    set (s3 := lset_sz s2 (sub64 (lsz s2) size)).
    rewrite (rd_ok s3 b size (b + 8) 8) by (try exact Hb2; cbn; lia). cbn [rbind]. change (lmem s3) with (lmem s2). rewrite Z2.
    destruct (setup_header_ok s3 b size size Hb2 ltac:(lia) ltac:(cbn; lia)) as (m' & E & M1 & M2 & M3). rewrite E. cbn [rbind].
    exists b, (lset_mem s3 m'), (C1 ++ C2). split; [reflexivity|].
    assert (T : total C = size + total (C1 ++ C2)) by (rewrite A, !total_app; cbn; lia).
    assert (SUB : forall x, In x (C1 ++ C2) -> In x C).
    { intros x Hx. rewrite A. apply in_app_or in Hx. apply in_or_app. destruct Hx; [left; assumption|right; right; assumption]. }
    assert (NC12 : NoDup (C1 ++ C2)) by (rewrite A in NDC; exact (NoDup_remove_1 _ _ _ NDC)).
    assert (NB : ~ In (b, size) (C1 ++ C2)) by (rewrite A in NDC; exact (NoDup_remove_2 _ _ _ NDC)).
    assert (SEP : forall x, In x (lmap s) -> x <> (b, size) -> forall y, fst x <= y < fst x + snd x -> y < b \/ b + 24 <= y).
    { intros x Hx NE y Hy. destruct (li_disj _ _ _ I x (b, size) Hx Hbm) as [EQ|D]; [contradiction|]. unfold disj in D. cbn [fst snd] in *. lia. }
    split; [exact HbC|]. split; [|split; [|split; [|split; [|split; [|split]]]]].
    + constructor; cbn [lset_mem lmem lmap lcache lsz lcnt s3 s2 lset_sz lset_cnt].
      * rewrite U1. apply (Permutation_trans (li_perm _ _ _ I)). rewrite A, <- !app_assoc. apply Permutation_app_head. cbn. apply Permutation_middle.
      * rewrite U1. exact (li_nodup _ _ _ I).
      * rewrite U1. exact (li_disj _ _ _ I).
      * rewrite U1. exact (li_ok _ _ _ I).
      * apply (links_frame _ (lmem s1)); [|exact U4]. intros b' n' Hin x Hx. apply M1.
        assert (Hin' : In (b', n') (lmap s)) by (apply (li_in_C s out C _ I); apply SUB; exact Hin).
        pose proof (okblk_size _ (li_ok _ _ _ I _ Hin')). cbn [snd] in *.
        apply (SEP (b', n') Hin'); [intros EQ; rewrite EQ in Hin; contradiction|]. cbn [fst snd]. lia.
      * intros b' n' [EQ|Hin]; [injection EQ as <- <-; exact M2|]. rewrite <- (li_hdr _ _ _ I b' n' Hin).
        pose proof (li_in_out s out C _ I Hin) as Hin'. pose proof (okblk_size _ (li_ok _ _ _ I _ Hin')). cbn [snd] in *.
        apply ld_ext. intros y Hy. cbn in Hy. rewrite M1.
        -- apply (U5 (b', n')); [right; exact Hin|]. cbn [fst snd]. lia.
        -- apply (SEP (b', n') Hin'); [intros EQ; rewrite EQ in Hin; exact (NDX _ HbC Hin)|]. cbn [fst snd]. lia.
      * rewrite U2, (li_sz _ _ _ I), T. pose proof (li_bound s out C (C1 ++ C2) I (fun x Hx => li_in_C s out C x I (SUB x Hx)) NC12).
        rewrite sub64_small; rewrite ?W64_val; lia.
      * rewrite U3, (li_cnt _ _ _ I). cbn [length]. lia.
    + cbn. exact U1.
    + lia.
    + exact M3.
    + intros x Hx y Hy. cbn [lset_mem lmem]. rewrite M1.
      * apply (U5 x); [right; exact Hx|exact Hy].
      * apply (SEP x); [exact (li_in_out s out C x I Hx)|intros ->; exact (NDX _ HbC Hx)|exact Hy].
    + lia.
    + exists C1, C2. split; [exact A|]. split; [reflexivity|exact FST].
Qed.

(** A request served by the OS. *)
Lemma new_ok : forall s out C size b, LInv s out C -> 0 < size -> size mod 4096 = 0 -> fresh s b size ->
  exists s', new_segment (Some b) size s = Ok (b, s') /\ LInv s' ((b, size) :: out) C /\ lmap s' = (b, size) :: lmap s /\
    ld (lmem s') (b + 16) 8 = 0 /\
    (forall x, In x out -> forall y, fst x <= y < fst x + snd x -> lmem s' y = lmem s y).
Proof.
  intros s out C size b I Hs Hm (F1 & F2 & F3). change (2 ^ 47) with 140737488355328 in F2. unfold new_segment. destruct (Z.eqb_spec b 0); [lia|].
  set (s1 := lset_map s ((b, size) :: lmap s)).
  assert (H1 : In (b, size) (lmap s1)) by (left; reflexivity).
  destruct (setup_header_ok s1 b size size H1 ltac:(lia) ltac:(cbn; lia)) as (m' & -> & M1 & M2 & M3). cbn [rbind].
  eexists. split; [reflexivity|].
  assert (SEP : forall x, In x (lmap s) -> forall y, fst x <= y < fst x + snd x -> y < b \/ b + 24 <= y).
  { intros x Hx y Hy. specialize (F3 x Hx). unfold disj in F3. cbn [fst snd] in *. lia. }
  assert (OK : okblk (b, size)) by (unfold okblk; cbn; lia).
  assert (ND : ~ In (b, size) (lmap s)). { intros H. specialize (F3 _ H). unfold disj in F3. cbn [fst snd] in *. lia. }
  split; [constructor; cbn [lset_cnt lset_mem lmem lmap lcache lsz lcnt s1 lset_map]|split; [reflexivity|split; [exact M3|]]].
  - apply (Permutation_trans (perm_skip _ (li_perm _ _ _ I))). apply Permutation_middle.
  - constructor; [exact ND|exact (li_nodup _ _ _ I)].
  - intros x y [<-|Hx] [<-|Hy].
    + left; reflexivity.
    + right. exact (F3 y Hy).
    + right. apply disj_sym. exact (F3 x Hx).
    + exact (li_disj _ _ _ I x y Hx Hy).
  - intros x [<-|Hx]; [exact OK|exact (li_ok _ _ _ I x Hx)].
  - apply (links_frame _ (lmem s)); [|exact (li_links _ _ _ I)]. intros b' n' Hin x Hx. apply M1.
    pose proof (li_in_C s out C _ I Hin) as Hin'. pose proof (okblk_size _ (li_ok _ _ _ I _ Hin')). cbn [snd] in *.
    apply (SEP (b', n') Hin'). cbn [fst snd]. lia.
  - intros b' n' [EQ|Hin]; [injection EQ as <- <-; exact M2|]. rewrite <- (li_hdr _ _ _ I b' n' Hin).
    pose proof (li_in_out s out C _ I Hin) as Hin'. pose proof (okblk_size _ (li_ok _ _ _ I _ Hin')). cbn [snd] in *.
    apply ld_ext. intros y Hy. cbn in Hy. apply M1. apply (SEP (b', n') Hin'). cbn [fst snd]. lia.
  - exact (li_sz _ _ _ I).
  - rewrite (li_cnt _ _ _ I). cbn [length]. lia.
  - intros x Hx y Hy. cbn [lset_cnt lset_mem lmem]. apply M1. apply (SEP x (li_in_out s out C x I Hx) y Hy).
Qed.

Lemma len_C s out C : LInv s out C -> (length C < loop_bound s)%nat.
Proof. intros I. unfold loop_bound. rewrite (Permutation_length (li_perm _ _ _ I)), app_length. lia. Qed.

Lemma req_ok : forall g s out C n gr, LInv s out C -> 0 < n -> n mod 4096 = 0 ->
  match gr with Some b => fresh s b n | None => n <= keep_max g /\ exists b, kept s out b n end ->
  exists r s' C', lightstep g (LReq n gr) s = Ok (r, s') /\ LInv s' ((r, n) :: out) C' /\ 0 < r /\ ld (lmem s') (r + 16) 8 = 0 /\
    (kept s out r n /\ lmap s' = lmap s /\ n <= keep_max g \/
     gr = Some r /\ lmap s' = (r, n) :: lmap s /\ (n <= keep_max g -> forall b, ~ kept s out b n)) /\
    (forall x, In x out -> forall y, fst x <= y < fst x + snd x -> lmem s' y = lmem s y) /\ total C' <= total C.
Proof.
  intros g s out C n gr I Hn Hm V. cbn [lightstep]. unfold request. destruct (Z.eqb_spec n 0); [lia|]. unfold keep. cbn [negb orb]. rewrite andb_true_r.
  assert (KC : forall b, kept s out b n <-> In (b, n) C).
  { intros b. unfold kept. split.
    - intros [H1 H2]. apply (Permutation_in _ (li_perm _ _ _ I)) in H1. apply in_app_or in H1. destruct H1; [assumption|contradiction].
    - intros H. split; [exact (li_in_C s out C _ I H)|]. destruct (nodup_app_inv _ _ _ (li_nd s out C I)) as (_ & _ & X). exact (X _ H). }
  destruct (Z.leb_spec n (keep_max g)) as [K|K].
  - destruct (find_ok s out C n (loop_bound s) I (len_C s out C I) Hn) as [[A B]|(b & s' & C' & A1 & A2 & A3 & A4 & A5 & A6 & A7 & A8 & _)].
    + rewrite B. cbn [rbind Z.eqb]. destruct gr as [b|].
      * destruct (new_ok s out C n b I Hn Hm V) as (s' & -> & N1 & N2 & N3 & N4). exists b, s', C.
        repeat (split; try assumption); try lia; try (destruct V; assumption).
        right. split; [reflexivity|]. split; [exact N2|]. intros _ b' H. apply KC in H. exact (A _ H eq_refl).
      * destruct V as (_ & b & H). apply KC in H. exfalso. exact (A _ H eq_refl).
    + rewrite A1. cbn [rbind]. destruct (Z.eqb_spec b 0); [lia|]. exists b, s', C'. repeat (split; try assumption). left. split; [apply KC; exact A2|]. split; [exact A4|exact K].
  - cbn [rbind Z.eqb]. destruct gr as [b|]; [|lia].
    destruct (new_ok s out C n b I Hn Hm V) as (s' & -> & N1 & N2 & N3 & N4). exists b, s', C.
    repeat (split; try assumption); try lia; try (destruct V; assumption).
    right. split; [reflexivity|]. split; [exact N2|]. lia.
Qed.

(** Putting a segment in the cache. *)
Lemma reg_ok : forall s b n out' C, In (b, n) (lmap s) -> okblk (b, n) -> ~ In (b, n) C -> ld (lmem s) (b + 8) 8 = n ->
  (forall x, In x C -> In x (lmap s)) -> 0 <= lcache s < 2 ^ 64 ->
  (forall x y, In x (lmap s) -> In y (lmap s) -> x = y \/ disj x y) -> (forall x, In x (lmap s) -> okblk x) ->
  links (lmem s) (lcache s) C -> lsz s = total C -> 0 <= total ((b, n) :: C) <= 140737488355328 ->
  (forall b' n', In (b', n') out' -> In (b', n') (lmap s) /\ (b', n') <> (b, n)) ->
  exists s', reg_in_cache b s = Ok s' /\ lmap s' = lmap s /\ links (lmem s') (lcache s') ((b, n) :: C) /\ lsz s' = total ((b, n) :: C) /\ lcnt s' = lcnt s /\
    (forall x, In x out' -> forall y, fst x <= y < fst x + snd x -> lmem s' y = lmem s y).
Proof.
  intros s b n out' C Hb Ob NC Z8 SC HC D OK L S B HO. pose proof (okblk_size _ Ob) as Sb. unfold okblk in Ob. cbn [fst snd] in *.
  unfold reg_in_cache. rewrite (wr_ok s b n b 8) by (try assumption; cbn; lia). cbn [rbind].
  match goal with |- context [rd (b + 8) 8 ?t] => rewrite (rd_ok t b n (b + 8) 8) by (try assumption; cbn; lia) end. cbn [rbind].
  eexists. split; [reflexivity|]. cbn [lset_sz lset_cache lset_mem lmap lmem lcache lsz lcnt].
  assert (Z9 : ld (sto (lmem s) b 8 (lcache s)) (b + 8) 8 = n) by (rewrite ld_sto_other by (cbn; lia); exact Z8).
  rewrite Z9. split; [reflexivity|]. split; [|split; [|split; [reflexivity|]]].
  - cbn [links]. split; [reflexivity|]. split; [exact Z9|]. rewrite ld_sto_same_small by exact HC.
    apply (links_frame C (lmem s)); [|exact L]. intros b' n' Hin x Hx. apply sto_other.
    destruct (D (b', n') (b, n) (SC _ Hin) Hb) as [E|E]; [rewrite E in Hin; contradiction|]. pose proof (okblk_size _ (OK _ (SC _ Hin))).
    unfold disj in E. cbn [fst snd] in *. cbn. lia.
  - rewrite S. cbn [total] in *. rewrite add64_small; rewrite ?W64_val; lia.
  - intros [b' n'] Hin y Hy. destruct (HO _ _ Hin) as [H1 H2]. apply sto_other. destruct (D (b', n') (b, n) H1 Hb) as [E|E]; [contradiction|].
    pose proof (okblk_size _ (OK _ H1)). unfold disj in E. cbn [fst snd] in *. cbn. lia.
Qed.

Lemma links_head_range m p C : links m p C -> (forall x, In x C -> okblk x) -> 0 <= p < 2 ^ 64.
Proof.
  intros L O. destruct C as [|[b n] C]; cbn in L; [subst p; cbn; lia|]. destruct L as (-> & _). destruct (O (b, n) (or_introl eq_refl)) as (H1 & H2 & H3 & _).
  cbn [fst snd] in *. change (2 ^ 64) with 18446744073709551616. lia.
Qed.

Lemma filter_out : forall (l : list (Z * Z)) b n, NoDup l -> In (b, n) l -> (forall x, In x l -> fst x = b -> x = (b, n)) ->
  Permutation l ((b, n) :: filter (fun x => negb (fst x =? b)) l) /\ length l = S (length (filter (fun x => negb (fst x =? b)) l)).
Proof.
  induction l as [|x l IH]; intros b n N H U; [contradiction|]. inversion N as [|? ? N1 N2]; subst. cbn [filter].
  destruct (Z.eqb_spec (fst x) b) as [E|E]; cbn [negb].
  - pose proof (U x (or_introl eq_refl) E) as ->.
    assert (F : filter (fun x => negb (fst x =? b)) l = l).
    { clear IH N2 N H. assert (A : forall x, In x l -> negb (fst x =? b) = true).
      { intros x Hx. destruct (Z.eqb_spec (fst x) b) as [E2|E2]; [|reflexivity]. exfalso. apply N1. rewrite <- (U x (or_intror Hx) E2). exact Hx. }
      clear - A. induction l as [|a l IH]; [reflexivity|]. cbn [filter]. rewrite (A a (or_introl eq_refl)). f_equal. apply IH. intros x Hx. apply A. right. exact Hx. }
    rewrite F. split; [apply Permutation_refl|reflexivity].
  - destruct H as [H|H]; [subst x; cbn in E; contradiction|]. destruct (IH b n N2 H) as [P L]; [intros y Hy; apply U; right; exact Hy|].
    split; [|cbn [length]; lia]. apply (Permutation_trans (perm_skip x P)). apply perm_swap.
Qed.

Lemma munmap_filter : forall (l : list (Z * Z)) b n, NoDup l -> In (b, n) l -> (forall x, In x l -> fst x = b -> x = (b, n)) ->
  existsb (fun '(x, z) => (x =? b) && (z =? n)) l = true /\
  filter (fun '(x, z) => negb ((x =? b) && (z =? n))) l = filter (fun x => negb (fst x =? b)) l.
Proof.
  intros l b n N H U. split.
  - apply existsb_exists. exists (b, n). split; [exact H|]. lia.
  - apply filter_ext_in. intros [x z] Hx. cbn [fst]. destruct (Z.eqb_spec x b) as [E|E]; [|reflexivity]. cbn [andb].
    specialize (U _ Hx E). injection U as _ ->. rewrite Z.eqb_refl. reflexivity.
Qed.

(** A segment given back. *)
Lemma free_ok : forall g s out C b n, LInv s out C -> In (b, n) out ->
  exists s' C', lightstep g (LFree b) s = Ok (0, s') /\ LInv s' (filter (fun x => negb (fst x =? b)) out) C' /\
    (n <= keep_max g /\ lsz s <= keep_mem g /\ lmap s' = lmap s /\ C' = (b, n) :: C \/
     ~ (n <= keep_max g /\ lsz s <= keep_mem g) /\ lmap s' = filter (fun x => negb (fst x =? b)) (lmap s) /\ C' = C) /\
    (forall x, In x (filter (fun x => negb (fst x =? b)) out) -> forall y, fst x <= y < fst x + snd x -> lmem s' y = lmem s y).
Proof.
  intros g s out C b n I Hb. pose proof (li_in_out s out C _ I Hb) as Hm. pose proof (li_ok _ _ _ I _ Hm) as Ob. pose proof (okblk_size _ Ob) as Sb.
  pose proof Ob as Ob'. unfold okblk in Ob'. cbn [fst snd] in *. pose proof (li_nd s out C I) as ND. destruct (nodup_app_inv _ _ _ ND) as (NDC & NDO & NDX).
  assert (Uq : forall x, In x (lmap s) -> fst x = b -> x = (b, n)) by (intros x Hx E; apply (same_base s out C x (b, n) I Hx Hm); exact E).
  destruct (filter_out out b n NDO Hb (fun x Hx => Uq x (li_in_out s out C x I Hx))) as [P PL].
  set (out' := filter (fun x => negb (fst x =? b)) out) in *.
  assert (O' : forall b' n', In (b', n') out' -> In (b', n') out /\ b' <> b).
  { intros b' n' H. unfold out' in H. apply filter_In in H. cbn [fst] in H. destruct H as [H1 H2]. split; [exact H1|]. lia. }
  cbn [lightstep]. unfold free_memory. rewrite (rd_ok s b n b 7) by (try assumption; cbn; lia). cbn [rbind]. rewrite (li_hdr _ _ _ I b n Hb).
  rewrite (wr_ok s b n b 8) by (try assumption; cbn; lia). cbn [rbind].
  match goal with |- context [wr (b + 8) 8 n ?t] => rewrite (wr_ok t b n (b + 8) 8) by (try assumption; cbn; lia) end. cbn [rbind].
  match goal with |- context [rd (b + 8) 8 ?t] => set (s1 := t) end.
  assert (Hm1 : In (b, n) (lmap s1)) by exact Hm.
  rewrite (rd_ok s1 b n (b + 8) 8) by (try assumption; cbn; lia). cbn [rbind].
  assert (Z8 : ld (lmem s1) (b + 8) 8 = n). { unfold s1. cbn [lset_mem lmem]. apply ld_sto_same_small. change (256 ^ Z.of_nat 8) with 18446744073709551616. lia. }
  rewrite Z8.
  assert (M1 : forall x, x < b \/ b + 16 <= x -> lmem s1 x = lmem s x). { intros x Hx. unfold s1. cbn [lset_mem lmem]. rewrite !sto_other by (cbn; lia). reflexivity. }
  assert (SEP : forall x, In x (lmap s) -> x <> (b, n) -> forall y, fst x <= y < fst x + snd x -> y < b \/ b + 16 <= y).
  { intros x Hx NE y Hy. destruct (li_disj _ _ _ I x (b, n) Hx Hm) as [E|D]; [contradiction|]. unfold disj in D. cbn [fst snd] in *. lia. }
  assert (NCb : ~ In (b, n) C) by (intros H; exact (NDX _ H Hb)).
  assert (L1 : links (lmem s1) (lcache s1) C).
  { apply (links_frame C (lmem s)); [|exact (li_links _ _ _ I)]. intros b' n' Hin x Hx. apply M1. pose proof (li_in_C s out C _ I Hin) as Hin'.
    pose proof (okblk_size _ (li_ok _ _ _ I _ Hin')). cbn [snd] in *. apply (SEP (b', n') Hin'); [intros E; rewrite E in Hin; contradiction|]. cbn [fst snd]. lia. }
  assert (F1 : forall x, In x out' -> forall y, fst x <= y < fst x + snd x -> lmem s1 y = lmem s y).
  { intros [b' n'] Hx y Hy. destruct (O' _ _ Hx) as [H1 H2]. apply M1. apply (SEP (b', n') (li_in_out s out C _ I H1)); [congruence|exact Hy]. }
  assert (H7 : forall m', (forall x, In x out' -> forall y, fst x <= y < fst x + snd x -> m' y = lmem s y) -> forall b' n', In (b', n') out' -> ld m' b' 7 = n').
  { intros m' F b' n' Hx. destruct (O' _ _ Hx) as [H1 H2]. rewrite <- (li_hdr _ _ _ I b' n' H1). apply ld_ext. intros y Hy. apply (F (b', n') Hx). cbn [fst snd].
    pose proof (okblk_size _ (li_ok _ _ _ I _ (li_in_out s out C _ I H1))). cbn [snd] in *. cbn in Hy. lia. }
  assert (PM : Permutation (lmap s) ((b, n) :: C ++ out')).
  { apply (Permutation_trans (li_perm _ _ _ I)). apply (Permutation_trans (Permutation_app_head C P)). apply Permutation_sym. apply Permutation_middle. }
  destruct (keep g s1 n true) eqn:K; unfold keep in K; cbn [negb orb] in K; change (lsz s1) with (lsz s) in K.
  - destruct (reg_ok s1 b n out' C Hm1 Ob NCb Z8) as (s2 & -> & R1 & R2 & R3 & R4 & R5).
    + intros x Hx. exact (li_in_C s out C x I Hx).
    + apply (links_head_range (lmem s) _ C (li_links _ _ _ I)). intros x Hx. apply (li_ok _ _ _ I). exact (li_in_C s out C x I Hx).
    + exact (li_disj _ _ _ I).
    + exact (li_ok _ _ _ I).
    + exact L1.
    + exact (li_sz _ _ _ I).
    + apply (li_bound s out C ((b, n) :: C) I).
      * intros x [<-|Hx]; [exact Hm|exact (li_in_C s out C x I Hx)].
      * constructor; assumption.
    + intros b' n' H. destruct (O' _ _ H) as [H1 H2]. split; [exact (li_in_out s out C _ I H1)|congruence].
    + cbn [rbind]. exists (lset_cnt s2 (lcnt s2 - 1)), ((b, n) :: C). split; [reflexivity|].
      assert (FR : forall x, In x out' -> forall y, fst x <= y < fst x + snd x -> lmem s2 y = lmem s y).
      { intros x Hx y Hy. rewrite (R5 x Hx y Hy). exact (F1 x Hx y Hy). }
      split; [|split; [|exact FR]].
      * constructor; cbn [lset_cnt lmap lmem lcache lsz lcnt].
        -- rewrite R1. exact PM.
        -- rewrite R1. exact (li_nodup _ _ _ I).
        -- rewrite R1. exact (li_disj _ _ _ I).
        -- rewrite R1. exact (li_ok _ _ _ I).
        -- exact R2.
        -- exact (H7 (lmem s2) FR).
        -- exact R3.
        -- rewrite R4. change (lcnt s1) with (lcnt s). rewrite (li_cnt _ _ _ I), PL. lia.
      * left. split; [lia|]. split; [lia|]. split; [exact R1|reflexivity].
  - destruct (munmap_filter (lmap s) b n (li_nodup _ _ _ I) Hm Uq) as [X1 X2].
    unfold munmap. change (lmap s1) with (lmap s). rewrite X1. cbn [rbind]. eexists. exists C. split; [reflexivity|].
    assert (SB : forall x, In x (filter (fun '(x, z) => negb ((x =? b) && (z =? n))) (lmap s)) -> In x (lmap s)) by (intros x Hx; apply filter_In in Hx; tauto).
    split; [|split; [right; split; [lia|]; split; [exact X2|reflexivity]|exact F1]].
    constructor; cbn [lset_cnt lset_map lmap lmem lcache lsz lcnt].
    + rewrite X2. destruct (filter_out (lmap s) b n (li_nodup _ _ _ I) Hm Uq) as [PP _].
      apply Permutation_cons_inv with (a := (b, n)). apply (Permutation_trans (Permutation_sym PP)). exact PM.
    + apply NoDup_filter. exact (li_nodup _ _ _ I).
    + intros x y Hx Hy. apply (li_disj _ _ _ I); apply SB; assumption.
    + intros x Hx. apply (li_ok _ _ _ I). apply SB. exact Hx.
    + exact L1.
    + exact (H7 (lmem s1) F1).
    + exact (li_sz _ _ _ I).
    + change (lcnt s1) with (lcnt s). rewrite (li_cnt _ _ _ I), PL. lia.
Qed.

Lemma insert_ok : forall g s out C b n, LInv s out C -> 0 < n -> b mod 4096 = 0 -> n mod 2097152 = 0 -> fresh s b n ->
  exists s', lightstep g (LInsert b n) s = Ok (0, s') /\ LInv s' out ((b, n) :: C) /\ lmap s' = (b, n) :: lmap s /\
    (forall x, In x out -> forall y, fst x <= y < fst x + snd x -> lmem s' y = lmem s y).
Proof.
  intros g s out C b n I Hn Hb Hn2 (F1 & F2 & F3). change (2 ^ 47) with 140737488355328 in F2. cbn [lightstep]. unfold insert_segment.
  destruct (Z.eqb_spec b 0); [lia|]. destruct (Z.eqb_spec n 0); [lia|]. cbn [orb]. rewrite Hb, Hn2. cbn [Z.eqb negb].
  set (s0 := lset_map s ((b, n) :: lmap s)). assert (H0 : In (b, n) (lmap s0)) by (left; reflexivity).
  assert (OK : okblk (b, n)) by (unfold okblk; cbn [fst snd]; lia). pose proof (okblk_size _ OK) as Sb. cbn [snd] in Sb.
  rewrite (wr_ok s0 b n (b + 8) 8) by (try assumption; cbn; lia). cbn [rbind].
  match goal with |- context [wr b 8 0 ?t] => rewrite (wr_ok t b n b 8) by (try assumption; cbn; lia) end. cbn [rbind].
  match goal with |- context [reg_in_cache b ?t] => set (s1 := t) end.
  assert (ND : ~ In (b, n) (lmap s)). { intros H. specialize (F3 _ H). unfold disj in F3. cbn [fst snd] in *. lia. }
  assert (D1 : forall x y, In x (lmap s1) -> In y (lmap s1) -> x = y \/ disj x y).
  { intros x y [<-|Hx] [<-|Hy]; [left; reflexivity|right; exact (F3 y Hy)|right; apply disj_sym; exact (F3 x Hx)|exact (li_disj _ _ _ I x y Hx Hy)]. }
  assert (O1 : forall x, In x (lmap s1) -> okblk x) by (intros x [<-|Hx]; [exact OK|exact (li_ok _ _ _ I x Hx)]).
  assert (M1 : forall x, In x (lmap s) -> forall y, fst x <= y < fst x + snd x -> lmem s1 y = lmem s y).
  { intros x Hx y Hy. unfold s1, s0. cbn [lset_mem lset_map lmem]. specialize (F3 x Hx). unfold disj in F3. cbn [fst snd] in *. rewrite !sto_other by (cbn; lia). reflexivity. }
  assert (NDl : NoDup (lmap s1)) by (constructor; [exact ND|exact (li_nodup _ _ _ I)]).
  destruct (nodup_app_inv _ _ _ (li_nd s out C I)) as (NDC & _ & _).
  assert (NCb : ~ In (b, n) C) by (intros H; apply ND; exact (li_in_C s out C _ I H)).
  destruct (reg_ok s1 b n out C) as (s2 & -> & R1 & R2 & R3 & R4 & R5).
  - left; reflexivity.
  - exact OK.
  - exact NCb.
  - unfold s1, s0. cbn [lset_mem lset_map lmem]. rewrite ld_sto_other by (cbn; lia). apply ld_sto_same_small. change (256 ^ Z.of_nat 8) with 18446744073709551616. lia.
  - intros x Hx. right. exact (li_in_C s out C x I Hx).
  - apply (links_head_range (lmem s) _ C (li_links _ _ _ I)). intros x Hx. apply (li_ok _ _ _ I). exact (li_in_C s out C x I Hx).
  - exact D1.
  - exact O1.
  - apply (links_frame C (lmem s)); [|exact (li_links _ _ _ I)]. intros b' n' Hin x Hx. pose proof (li_in_C s out C _ I Hin) as Hin'.
    pose proof (okblk_size _ (li_ok _ _ _ I _ Hin')). cbn [snd] in *. apply (M1 (b', n') Hin'). cbn [fst snd]. lia.
  - exact (li_sz _ _ _ I).
  - apply (total_bound (length ((b, n) :: C)) _ 140737488355328 eq_refl).
    + constructor; assumption.
    + intros x y Hx Hy. apply D1; [destruct Hx as [<-|Hx]; [left; reflexivity|right; exact (li_in_C s out C x I Hx)]|destruct Hy as [<-|Hy]; [left; reflexivity|right; exact (li_in_C s out C y I Hy)]].
    + intros x Hx. assert (okblk x) as (X1 & X2 & X3 & _); [|auto]. apply O1. destruct Hx as [<-|Hx]; [left; reflexivity|right; exact (li_in_C s out C x I Hx)].
    + lia.
  - intros b' n' H. pose proof (li_in_out s out C _ I H) as H'. split; [right; exact H'|]. intros E. rewrite E in H'. contradiction.
  - cbn [rbind]. exists s2. split; [reflexivity|].
    assert (FR : forall x, In x out -> forall y, fst x <= y < fst x + snd x -> lmem s2 y = lmem s y).
    { intros x Hx y Hy. rewrite (R5 x Hx y Hy). exact (M1 x (li_in_out s out C x I Hx) y Hy). }
    split; [|split; [exact R1|exact FR]]. constructor.
    + rewrite R1. cbn. apply perm_skip. exact (li_perm _ _ _ I).
    + rewrite R1. exact NDl.
    + rewrite R1. exact D1.
    + rewrite R1. exact O1.
    + exact R2.
    + intros b' n' H. rewrite <- (li_hdr _ _ _ I b' n' H). apply ld_ext. intros y Hy. apply (FR (b', n') H). cbn [fst snd].
      pose proof (okblk_size _ (li_ok _ _ _ I _ (li_in_out s out C _ I H))). cbn [snd] in *. cbn in Hy. lia.
    + exact R3.
    + rewrite R4. exact (li_cnt _ _ _ I).
Qed.

Lemma write_ok : forall s out C x v b n, LInv s out C -> In (b, n) out -> b + 16 <= x < b + n -> LInv (lset_mem s (upd (lmem s) x v)) out C.
Proof.
  intros s out C x v b n I Hb Hx. pose proof (li_in_out s out C _ I Hb) as Hm. destruct (nodup_app_inv _ _ _ (li_nd s out C I)) as (_ & _ & NDX).
  assert (M : forall y, y <> x -> upd (lmem s) x v y = lmem s y) by (intros y Hy; unfold upd; destruct (Z.eqb_spec y x); [contradiction|reflexivity]).
  destruct I. constructor; cbn [lset_mem lmap lmem lcache lsz lcnt]; try assumption.
  - apply (links_frame C (lmem s)); [|exact li_links0]. intros b' n' Hin y Hy. apply M.
    assert (Hin' : In (b', n') (lmap s)) by (apply (Permutation_in _ (Permutation_sym li_perm0)); apply in_or_app; left; exact Hin).
    pose proof (okblk_size _ (li_ok0 _ Hin')). destruct (li_disj0 (b', n') (b, n) Hin' Hm) as [E|D]; [rewrite E in Hin; exfalso; exact (NDX _ Hin Hb)|].
    unfold disj in D. cbn [fst snd] in *. lia.
  - intros b' n' Hin. rewrite <- (li_hdr0 b' n' Hin). apply ld_ext. intros y Hy. apply M.
    assert (Hin' : In (b', n') (lmap s)) by (apply (Permutation_in _ (Permutation_sym li_perm0)); apply in_or_app; right; exact Hin).
    pose proof (okblk_size _ (li_ok0 _ Hin')). destruct (li_disj0 (b', n') (b, n) Hin' Hm) as [E|D].
    + injection E as -> ->. cbn in Hy. lia.
    + unfold disj in D. cbn [fst snd] in *. cbn in Hy. lia.
Qed.

Lemma light_step_ok : forall g ins s out C a, LInv s out C -> lvalid g ins s out a -> exists r s' C', lightstep g a s = Ok (r, s') /\ LInv s' (lafter out a r) C' /\
  (ins = false -> 0 <= keep_max g -> total C <= Z.max 0 (keep_mem g + keep_max g) -> total C' <= Z.max 0 (keep_mem g + keep_max g)).
Proof.
  intros g ins s out C [n gr|b|b n|x v] I V; cbn [lafter].
  - destruct V as (V1 & V2 & V3). destruct (req_ok g s out C n gr I V1 V2 V3) as (r & s' & C' & A1 & A2 & _ & _ & _ & _ & A3). exists r, s', C'.
    split; [exact A1|]. split; [exact A2|]. lia.
  - destruct V as (n & V). destruct (free_ok g s out C b n I V) as (s' & C' & A1 & A2 & A3 & _). exists 0, s', C'. split; [exact A1|]. split; [exact A2|].
    rewrite (li_sz _ _ _ I) in A3. intros _ K B. destruct A3 as [(K1 & K2 & _ & ->)|(_ & _ & ->)]; [cbn [total]; lia|exact B].
  - destruct V as (V0 & V1 & V2 & V3 & V4). destruct (insert_ok g s out C b n I V1 V2 V3 V4) as (s' & A1 & A2 & _). exists 0, s', ((b, n) :: C).
    split; [exact A1|]. split; [exact A2|]. congruence.
  - destruct V as (b & n & V1 & V2). exists 0, (lset_mem s (upd (lmem s) x v)), C. split; [reflexivity|]. split; [exact (write_ok s out C x v b n I V1 V2)|]. auto.
Qed.

Lemma light_inv : forall g ins s out, lightreach g ins s out -> exists C, LInv s out C /\ (ins = false -> 0 <= keep_max g -> total C <= Z.max 0 (keep_mem g + keep_max g)).
Proof.
  induction 1 as [m|s out a r s' R IH V E].
  - exists []. split; [apply linv_init|]. intros. cbn. lia.
  - destruct IH as (C & I & B). destruct (light_step_ok g ins s out C a I V) as (r1 & s1 & C1 & E1 & I1 & B1). rewrite E in E1. injection E1 as <- <-.
    exists C1. split; [exact I1|]. auto.
Qed.

(** ** Lemmas behind the properties *)
Lemma light_result : forall g ins s out n gr, lightreach g ins s out -> lvalid g ins s out (LReq n gr) ->
  exists r s', lightstep g (LReq n gr) s = Ok (r, s') /\ 0 < r /\ In (r, n) (lmap s') /\ ld (lmem s') r 7 = n /\ ld (lmem s') (r + 16) 8 = 0 /\
    (forall x, In x out -> disj (r, n) x) /\ (kept s out r n \/ gr = Some r /\ fresh s r n).
Proof.
  intros g ins s out n gr R (V1 & V2 & V3). destruct (light_inv g ins s out R) as (C & I & _).
  destruct (req_ok g s out C n gr I V1 V2 V3) as (r & s' & C' & A1 & A2 & A3 & A4 & A5 & A6 & A7). exists r, s'. split; [exact A1|]. split; [exact A3|].
  assert (Hr : In (r, n) (lmap s')) by (apply (li_in_out s' ((r, n) :: out) C' _ A2); left; reflexivity).
  split; [exact Hr|]. split; [apply (li_hdr _ _ _ A2); left; reflexivity|]. split; [exact A4|]. split.
  - intros x Hx. assert (Hxm : In x (lmap s')) by (apply (li_in_out s' ((r, n) :: out) C' _ A2); right; exact Hx).
    destruct (li_disj _ _ _ A2 (r, n) x Hr Hxm) as [E|D]; [|exact D]. exfalso. pose proof (li_nd _ _ _ A2) as ND. subst x.
    apply NoDup_remove_2 in ND. apply ND. apply in_or_app. right. exact Hx.
  - destruct A5 as [(K & _)|(-> & _)]; [left; exact K|right]. split; [reflexivity|exact V3].
Qed.

Lemma light_disjoint : forall g ins s out, lightreach g ins s out ->
  ForallOrdPairs disj out /\ forall b n, In (b, n) out -> 0 < b /\ 0 < n /\ b + n <= 2 ^ 47 /\ In (b, n) (lmap s) /\ ld (lmem s) b 7 = n.
Proof.
  intros g ins s out R. destruct (light_inv g ins s out R) as (C & I & _). split.
  - assert (A : forall x y, In x out -> In y out -> x = y \/ disj x y) by (intros x y Hx Hy; apply (li_disj _ _ _ I); apply (li_in_out s out C); assumption).
    destruct (nodup_app_inv _ _ _ (li_nd s out C I)) as (_ & N & _). clear - A N. induction out as [|a l IH]; [constructor|]. inversion N as [|? ? N1 N2]; subst.
    constructor.
    + apply Forall_forall. intros x Hx. destruct (A a x (or_introl eq_refl) (or_intror Hx)) as [->|D]; [contradiction|exact D].
    + apply IH; [|exact N2]. intros x y Hx Hy. apply A; right; assumption.
  - intros b n H. pose proof (li_in_out s out C _ I H) as Hm. destruct (li_ok _ _ _ I _ Hm) as (H1 & H2 & H3 & _). cbn [fst snd] in *.
    change (2 ^ 47) with 140737488355328. pose proof (li_hdr _ _ _ I b n H). auto.
Qed.

Lemma light_untouched : forall g ins s out a r s', lightreach g ins s out -> lvalid g ins s out a -> lightstep g a s = Ok (r, s') ->
  forall b n y, In (b, n) out -> In (b, n) (lafter out a r) -> b <= y < b + n ->
  lmem s' y = match a with LWrite x v => if y =? x then v else lmem s y | _ => lmem s y end.
Proof.
  intros g ins s out a r s' R V E b n y Hb Ha Hy. destruct (light_inv g ins s out R) as (C & I & _). destruct a as [k gr|f|f k|x v].
  - destruct V as (V1 & V2 & V3). destruct (req_ok g s out C k gr I V1 V2 V3) as (r1 & s1 & C' & A1 & _ & _ & _ & _ & A6 & _).
    rewrite E in A1. injection A1 as <- <-. exact (A6 (b, n) Hb y Hy).
  - destruct V as (k & V). destruct (free_ok g s out C f k I V) as (s1 & C' & A1 & _ & _ & A6). rewrite E in A1. injection A1 as _ <-.
    exact (A6 (b, n) Ha y Hy).
  - destruct V as (V0 & V1 & V2 & V3 & V4). destruct (insert_ok g s out C f k I V1 V2 V3 V4) as (s1 & A1 & _ & _ & A6). rewrite E in A1. injection A1 as _ <-.
    exact (A6 (b, n) Hb y Hy).
  - cbn [lightstep] in E. injection E as _ <-. reflexivity.
Qed.

Lemma light_returns : forall g ins s out a, lightreach g ins s out -> lvalid g ins s out a -> exists r s', lightstep g a s = Ok (r, s').
Proof.
  intros g ins s out a R V. destruct (light_inv g ins s out R) as (C & I & _). destruct (light_step_ok g ins s out C a I V) as (r & s' & _ & E & _). eauto.
Qed.

Lemma light_accounting : forall g ins s out, lightreach g ins s out -> lcnt s = Z.of_nat (length out) /\ lsz s = total (lmap s) - total out /\ 0 <= lsz s < 2 ^ 64.
Proof.
  intros g ins s out R. destruct (light_inv g ins s out R) as (C & I & _). split; [exact (li_cnt _ _ _ I)|].
  pose proof (total_perm _ _ (li_perm _ _ _ I)) as T. rewrite total_app in T. rewrite (li_sz _ _ _ I). split; [lia|].
  destruct (nodup_app_inv _ _ _ (li_nd s out C I)) as (N & _ & _). pose proof (li_bound s out C C I (fun x Hx => li_in_C s out C x I Hx) N).
  change (2 ^ 64) with 18446744073709551616. lia.
Qed.

Lemma light_bound : forall g s out, 0 <= keep_max g -> 0 <= keep_mem g -> lightreach g false s out -> total (lmap s) - total out <= keep_mem g + keep_max g.
Proof.
  intros g s out K1 K2 R. destruct (light_inv g false s out R) as (C & I & B). specialize (B eq_refl K1).
  pose proof (total_perm _ _ (li_perm _ _ _ I)) as T. rewrite total_app in T. lia.
Qed.

Lemma light_free : forall g ins s out b n r s', lightreach g ins s out -> In (b, n) out -> lightstep g (LFree b) s = Ok (r, s') ->
  (n <= keep_max g /\ lsz s <= keep_mem g -> lmap s' = lmap s) /\
  (~ (n <= keep_max g /\ lsz s <= keep_mem g) -> forall x, In x (lmap s') <-> In x (lmap s) /\ x <> (b, n)).
Proof.
  intros g ins s out b n r s' R H E. destruct (light_inv g ins s out R) as (C & I & _). destruct (free_ok g s out C b n I H) as (s1 & C' & A1 & _ & A3 & _).
  rewrite E in A1. injection A1 as _ <-. destruct A3 as [(K1 & K2 & M & _)|(K & M & _)].
  - split; [intros _; exact M|]. intros K. exfalso. apply K. auto.
  - split; [intros K'; contradiction|]. intros _ x. rewrite M, filter_In. split.
    + intros [H1 H2]. split; [exact H1|]. intros ->. cbn [fst] in H2. lia.
    + intros [H1 H2]. split; [exact H1|]. destruct (Z.eqb_spec (fst x) b) as [Eb|Eb]; [|reflexivity]. exfalso. apply H2.
      apply (same_base s out C x (b, n) I H1 (li_in_out s out C _ I H)). exact Eb.
Qed.

Lemma light_reuse : forall g ins s out b n gr, lightreach g ins s out -> 0 < n -> n <= keep_max g -> kept s out b n -> match gr with Some a => fresh s a n | None => True end ->
  exists r s', lightstep g (LReq n gr) s = Ok (r, s') /\ kept s out r n /\ lmap s' = lmap s.
Proof.
  intros g ins s out b n gr R Hn K H Hg. destruct (light_inv g ins s out R) as (C & I & _).
  assert (Hm : n mod 4096 = 0) by (destruct (li_ok _ _ _ I (b, n) (proj1 H)) as (_ & _ & _ & Hm); exact Hm).
  destruct (req_ok g s out C n gr I Hn Hm) as (r & s' & C' & A1 & _ & _ & _ & A5 & _); [destruct gr; [exact Hg|split; [exact K|exists b; exact H]]|].
  exists r, s'. split; [exact A1|]. destruct A5 as [(H1 & H2 & _)|(_ & _ & A)]; [auto|]. exfalso. exact (A K b H).
Qed.

Lemma light_no_memory : forall g ins s out n, lightreach g ins s out -> 0 < n -> (n <= keep_max g -> forall b, ~ kept s out b n) -> lightstep g (LReq n None) s = UB.
Proof.
  intros g ins s out n R Hn K. destruct (light_inv g ins s out R) as (C & I & _). cbn [lightstep]. unfold request. destruct (Z.eqb_spec n 0); [lia|].
  assert (F : (if keep g s n false then find_in_cache (loop_bound s) n s else Ok (0, s)) = Ok (0, s)).
  { unfold keep. cbn [negb orb]. rewrite andb_true_r. destruct (Z.leb_spec n (keep_max g)) as [L|L]; [|reflexivity].
    destruct (find_ok s out C n (loop_bound s) I (len_C s out C I) Hn) as [[A B]|(b & s' & C' & _ & A2 & _)]; [exact B|].
    exfalso. apply (K L b). split; [exact (li_in_C s out C _ I A2)|]. destruct (nodup_app_inv _ _ _ (li_nd s out C I)) as (_ & _ & X). exact (X _ A2). }
  rewrite F. cbn [rbind Z.eqb]. unfold new_segment. change (MAP_FAILED =? 0) with false. cbv iota. unfold setup_header, wr.
  replace (accb (lmap s) MAP_FAILED (Z.of_nat 7)) with false; [reflexivity|]. symmetry. unfold accb. apply not_true_is_false. intros H. apply existsb_exists in H.
  destruct H as ([x z] & H1 & H2). destruct (li_ok _ _ _ I _ H1) as (X1 & X2 & X3 & _). cbn [fst snd] in *. unfold MAP_FAILED in H2. lia.
Qed.

(** Cleanup. *)
Lemma cleanup_loop_ok : forall C s cur fuel, links (lmem s) cur C -> NoDup (lmap s) -> Permutation (lmap s) C -> (forall x, In x (lmap s) -> okblk x) ->
  (forall x y, In x (lmap s) -> In y (lmap s) -> fst x = fst y -> x = y) -> (length C < fuel)%nat ->
  exists s', cleanup_loop fuel cur s = Ok s' /\ lmap s' = [] /\ lmem s' = lmem s.
Proof.
  induction C as [|[b n] C IH]; intros s cur fuel L N P O U F; (destruct fuel as [|fuel]; [inversion F|]); cbn [cleanup_loop].
  - cbn in L. subst cur. exists s. split; [reflexivity|]. split; [apply Permutation_nil; apply Permutation_sym; exact P|reflexivity].
  - cbn [links] in L. destruct L as (-> & L1 & L2). assert (H : In (b, n) (lmap s)) by (apply (Permutation_in _ (Permutation_sym P)); left; reflexivity).
    pose proof (O _ H) as Ob. pose proof (okblk_size _ Ob) as Sb. unfold okblk in Ob. cbn [fst snd] in *. destruct (Z.eqb_spec b 0); [lia|].
    rewrite (rd_ok s b n b 8) by (try assumption; cbn; lia). cbn [rbind]. rewrite (rd_ok s b n (b + 8) 8) by (try assumption; cbn; lia). cbn [rbind]. rewrite L1.
    assert (Uq : forall x, In x (lmap s) -> fst x = b -> x = (b, n)) by (intros x Hx E; apply U; assumption).
    destruct (munmap_filter (lmap s) b n N H Uq) as [X1 X2]. unfold munmap. rewrite X1, X2. cbn [rbind].
    destruct (filter_out (lmap s) b n N H Uq) as [PP _].
    destruct (IH (lset_map s (filter (fun x => negb (fst x =? b)) (lmap s))) (ld (lmem s) b 8) fuel) as (s' & E1 & E2 & E3).
    + exact L2.
    + cbn. apply NoDup_filter. exact N.
    + cbn. apply Permutation_cons_inv with (a := (b, n)). apply (Permutation_trans (Permutation_sym PP)). exact P.
    + cbn. intros x Hx. apply filter_In in Hx. apply O. tauto.
    + cbn. intros x y Hx Hy. apply filter_In in Hx, Hy. apply U; tauto.
    + cbn in F. lia.
    + exists s'. split; [exact E1|]. split; [exact E2|exact E3].
Qed.
Lemma light_cleanup : forall g ins s, lightreach g ins s [] -> exists s', cleanup (loop_bound s) s = Ok s' /\ lmap s' = [].
Proof.
  intros g ins s R. destruct (light_inv g ins s [] R) as (C & I & _). unfold cleanup. rewrite (li_cnt _ _ _ I). cbn [length Z.of_nat Z.eqb].
  pose proof (li_perm _ _ _ I) as P. rewrite app_nil_r in P.
  destruct (cleanup_loop_ok C s (lcache s) (loop_bound s) (li_links _ _ _ I) (li_nodup _ _ _ I) P (li_ok _ _ _ I)) as (s' & E1 & E2 & _).
  - intros x y. apply (same_base s [] C x y I).
  - exact (len_C s [] C I).
  - eauto.
Qed.
Lemma light_cleanup_held : forall g ins s out, lightreach g ins s out -> out <> [] -> cleanup (loop_bound s) s = Abort.
Proof.
  intros g ins s out R NE. destruct (light_inv g ins s out R) as (C & I & _). unfold cleanup. rewrite (li_cnt _ _ _ I).
  destruct out; [congruence|]. reflexivity.
Qed.
