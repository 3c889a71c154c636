(** Proofs for C71. *)
From Verif Require Import Word Res Mem LightModel LightSpec LightProofs LightConcModel LightConcSpec LightSoloSpec.
From Coq Require Import ZArith List Bool Lia Arith Permutation.
Import ListNotations.
Open Scope Z_scope.
Local Arguments ld : simpl never.
Local Arguments sto : simpl never.

Lemma lcruns_app : forall g l1 l2 s s1 s2, lcruns g s l1 s1 -> lcruns g s1 l2 s2 -> lcruns g s (l1 ++ l2) s2.
Proof. induction l1 as [|a l1 IH]; intros l2 s s1 s2 H1 H2; inversion H1; subst; [exact H2|]. cbn. econstructor; [eassumption|]. eapply IH; eassumption. Qed.

(** The list in memory is unique. *)
Lemma links_cached : forall C m p, (forall x, In x C -> 0 < fst x) -> links m p C -> cached m p C.
Proof.
  induction C as [|[b n] C IH]; intros m p O H; cbn in *; [exact H|]. destruct H as (-> & H1 & H2). split; [reflexivity|]. split; [pose proof (O (b, n) (or_introl eq_refl)); cbn in *; lia|].
  split; [exact H1|]. apply IH; [intros x Hx; apply O; right; exact Hx|exact H2].
Qed.
Lemma cached_uniq : forall C m p q, cached m p C -> cached m p q -> C = q.
Proof.
  induction C as [|x C IH]; intros m p q H K; destruct q as [|y q]; cbn in *; try reflexivity; try (destruct K as (-> & K & _); congruence); try (destruct H as (-> & H & _); congruence).
  destruct H as (H0 & _ & H1 & H2). destruct K as (K0 & _ & K1 & K2). f_equal; [|exact (IH _ _ _ H2 K2)]. destruct x, y. cbn in *. congruence.
Qed.
Lemma linv_cached s out C : LInv s out C -> cached (lmem s) (lcache s) C.
Proof. intros I. apply links_cached; [|exact (li_links _ _ _ I)]. intros x Hx. destruct (li_ok _ _ _ I x (li_in_C s out C x I Hx)) as (H & _). exact H. Qed.

Lemma take_none : forall n C, (forall x, In x C -> snd x <> n) -> take n C = None.
Proof.
  induction C as [|x C IH]; intros H; cbn; [reflexivity|]. destruct (Z.eqb_spec (snd x) n) as [E|E]; [exfalso; exact (H x (or_introl eq_refl) E)|].
  rewrite IH; [reflexivity|]. intros y Hy. apply H. right. exact Hy.
Qed.
Lemma take_first : forall n b C1 C2, (forall x, In x C1 -> snd x <> n) -> take n (C1 ++ (b, n) :: C2) = Some ((b, n), C1 ++ C2).
Proof.
  induction C1 as [|x C1 IH]; intros C2 H; cbn.
  - rewrite Z.eqb_refl. reflexivity.
  - destruct (Z.eqb_spec (snd x) n) as [E|E]; [exfalso; exact (H x (or_introl eq_refl) E)|]. rewrite IH; [reflexivity|]. intros y Hy. apply H. right. exact Hy.
Qed.

(** One access of thread [t]. *)
Lemma go1 g t a k s s1 s2 : lcstep g (AGo t a) s = Ok s1 -> lcruns g s1 (repeat (AGo t a) k) s2 -> lcruns g s (repeat (AGo t a) (S k)) s2.
Proof. intros H K. cbn. econstructor; eassumption. Qed.
Lemma place_at s t p : place_of s t p t = p.
Proof. unfold place_of. rewrite Nat.eqb_refl. reflexivity. Qed.
Lemma place_other s t p u : u <> t -> place_of s t p u = cat_ s u.
Proof. intros H. unfold place_of. destruct (Nat.eqb_spec u t); [contradiction|reflexivity]. Qed.
Lemma src_at s j c : src_of s j c j = c.
Proof. unfold src_of. rewrite Nat.eqb_refl. reflexivity. Qed.
Lemma src_other s j c i : i <> j -> src_of s j c i = srcs s i.
Proof. intros H. unfold src_of. destruct (Nat.eqb_spec i j); [contradiction|reflexivity]. Qed.
Ltac see := cbn [srcs held maps cat_]; rewrite ?place_at, ?src_at; cbn [srcs held maps cat_ cq csz ccnt clk fst snd].
Ltac go1 := eapply go1; [cbn [lcstep]; see; reflexivity|].
Ltac others := intros i Hi; see; rewrite ?src_other by exact Hi; see; rewrite ?src_other by exact Hi; see; rewrite ?src_other by exact Hi; see; rewrite ?src_other by exact Hi; see; rewrite ?src_other by exact Hi; reflexivity.
Ltac places u Hu := see; rewrite ?place_other by exact Hu; see; rewrite ?place_other by exact Hu; see; rewrite ?place_other by exact Hu; see; rewrite ?place_other by exact Hu; see; rewrite ?place_other by exact Hu; see; rewrite ?place_other by exact Hu; see; rewrite ?place_other by exact Hu; reflexivity.

(** What a call of thread [t] on source [j] leaves: fields of the source, segments in use, mappings, the rest as before. *)
Definition leaves (t j : nat) (c c' : lcst) (q : csrc) (h : list (Z * Z * nat)) (m : list (Z * Z)) : Prop :=
  srcs c' j = q /\ held c' = h /\ maps c' = m /\ (forall i, i <> j -> srcs c' i = srcs c i) /\ forall u, cat_ c' u = cat_ c u.

(** A request served by mmap, without and with a look at the cache. *)
Lemma run_new g t j n gr c : cat_ c t = PIdle -> clk (srcs c j) = None -> keep_max g < n ->
  exists k c', lcruns g c (AReq t j n :: repeat (AGo t gr) k) c' /\
    leaves t j c c' (mkCs (cq (srcs c j)) (csz (srcs c j)) (ccnt (srcs c j) + 1) None) (((gr, n), j) :: held c) ((gr, n) :: maps c).
Proof.
  intros P L K. exists 2%nat. eexists. split.
  - eapply lcruns_s; [cbn [lcstep]; rewrite P; destruct (Z.leb_spec n (keep_max g)); [lia|reflexivity]|]. go1. go1. constructor.
  - unfold leaves. see. rewrite L. repeat split; [others|]. intros u. destruct (Nat.eq_dec u t) as [->|Hu]; [see; symmetry; exact P|places u Hu].
Qed.
Lemma run_miss g t j n gr c : cat_ c t = PIdle -> clk (srcs c j) = None -> n <= keep_max g -> take n (cq (srcs c j)) = None ->
  exists k c', lcruns g c (AReq t j n :: repeat (AGo t gr) k) c' /\
    leaves t j c c' (mkCs (cq (srcs c j)) (csz (srcs c j)) (ccnt (srcs c j) + 1) None) (((gr, n), j) :: held c) ((gr, n) :: maps c).
Proof.
  intros P L K T. exists 5%nat. eexists. split.
  - eapply lcruns_s; [cbn [lcstep]; rewrite P; destruct (Z.leb_spec n (keep_max g)); [reflexivity|lia]|].
    eapply go1; [cbn [lcstep]; see; rewrite L; reflexivity|].
    eapply go1; [cbn [lcstep]; see; rewrite T; reflexivity|]. go1. go1. go1. constructor.
  - unfold leaves. see. repeat split; [others|]. intros u. destruct (Nat.eq_dec u t) as [->|Hu]; [see; symmetry; exact P|places u Hu].
Qed.
Lemma run_hit g t j n gr c x l : cat_ c t = PIdle -> clk (srcs c j) = None -> n <= keep_max g -> take n (cq (srcs c j)) = Some (x, l) ->
  exists k c', lcruns g c (AReq t j n :: repeat (AGo t gr) k) c' /\
    leaves t j c c' (mkCs l (csz (srcs c j) - snd x) (ccnt (srcs c j) + 1) None) ((x, j) :: held c) (maps c).
Proof.
  intros P L K T. exists 5%nat. eexists. split.
  - eapply lcruns_s; [cbn [lcstep]; rewrite P; destruct (Z.leb_spec n (keep_max g)); [reflexivity|lia]|].
    eapply go1; [cbn [lcstep]; see; rewrite L; reflexivity|].
    eapply go1; [cbn [lcstep]; see; rewrite T; reflexivity|]. go1. go1. go1. constructor.
  - unfold leaves. see. repeat split; [others|]. intros u. destruct (Nat.eq_dec u t) as [->|Hu]; [see; symmetry; exact P|places u Hu].
Qed.
Lemma run_keep g t j x gr c : cat_ c t = PIdle -> clk (srcs c j) = None -> snd x <= keep_max g -> csz (srcs c j) <= keep_mem g ->
  exists k c', lcruns g c (AFree t j x :: repeat (AGo t gr) k) c' /\
    leaves t j c c' (mkCs (x :: cq (srcs c j)) (csz (srcs c j) + snd x) (ccnt (srcs c j) - 1) None) (drop_held x (held c)) (maps c).
Proof.
  intros P L K1 K2. exists 6%nat. eexists. split.
  - eapply lcruns_s; [cbn [lcstep]; rewrite P; reflexivity|].
    eapply go1; [cbn [lcstep]; see; destruct (Z.leb_spec (snd x) (keep_max g)); [|lia]; destruct (Z.leb_spec (csz (srcs c j)) (keep_mem g)); [|lia]; reflexivity|].
    cbn [andb]. eapply go1; [cbn [lcstep]; see; rewrite L; reflexivity|]. go1. go1. go1. go1. constructor.
  - unfold leaves. see. repeat split; [others|]. intros u. destruct (Nat.eq_dec u t) as [->|Hu]; [see; symmetry; exact P|places u Hu].
Qed.
Lemma run_unmap g t j x gr c : cat_ c t = PIdle -> clk (srcs c j) = None -> ~ (snd x <= keep_max g /\ csz (srcs c j) <= keep_mem g) -> existsb (seg_eqb x) (maps c) = true ->
  exists k c', lcruns g c (AFree t j x :: repeat (AGo t gr) k) c' /\
    leaves t j c c' (mkCs (cq (srcs c j)) (csz (srcs c j)) (ccnt (srcs c j) - 1) None) (drop_held x (held c)) (filter (fun y => negb (seg_eqb x y)) (maps c)).
Proof.
  intros P L K E. exists 3%nat. eexists. split.
  - eapply lcruns_s; [cbn [lcstep]; rewrite P; reflexivity|].
    eapply go1; [cbn [lcstep]; see; destruct ((snd x <=? keep_max g) && (csz (srcs c j) <=? keep_mem g)) eqn:B; [exfalso; apply K; lia|reflexivity]|].
    eapply go1; [cbn [lcstep]; see; rewrite E; reflexivity|]. go1. constructor.
  - unfold leaves. see. rewrite L. repeat split; [others|]. intros u. destruct (Nat.eq_dec u t) as [->|Hu]; [see; symmetry; exact P|places u Hu].
Qed.

(** Segments in use. *)
Lemma given_cons j x i l : given j ((x, i) :: l) = if Nat.eqb i j then x :: given j l else given j l.
Proof. unfold given. cbn [filter snd]. destruct (Nat.eqb i j); reflexivity. Qed.
Lemma in_given j x l : In x (given j l) <-> In (x, j) l.
Proof.
  unfold given. rewrite in_map_iff. split.
  - intros ((y & i) & E & H). apply filter_In in H. destruct H as [H1 H2]. cbn in *. apply Nat.eqb_eq in H2. subst. exact H1.
  - intros H. exists (x, j). split; [reflexivity|]. apply filter_In. split; [exact H|]. cbn. apply Nat.eqb_refl.
Qed.
Lemma seg_eqb_eq x y : seg_eqb x y = true <-> x = y.
Proof. destruct x, y. unfold seg_eqb. cbn [fst snd]. rewrite andb_true_iff, !Z.eqb_eq. split; [intros [-> ->]; reflexivity|intros E; injection E; auto]. Qed.
Lemma seg_eqb_refl x : seg_eqb x x = true.
Proof. apply seg_eqb_eq. reflexivity. Qed.
Lemma filter_id : forall A (f : A -> bool) l, (forall x, In x l -> f x = true) -> filter f l = l.
Proof. induction l as [|x l IH]; intros H; cbn; [reflexivity|]. rewrite (H x (or_introl eq_refl)). f_equal. apply IH. intros y Hy. apply H. right. exact Hy. Qed.
(** Dropping [x], which only source [j] gave, once. *)
Lemma drop_given : forall l j b n, NoDup (given j l) -> In (b, n) (given j l) -> (forall y, In y (given j l) -> fst y = b -> y = (b, n)) ->
  (forall i, i <> j -> ~ In (b, n) (given i l)) ->
  given j (drop_held (b, n) l) = filter (fun x => negb (fst x =? b)) (given j l) /\ forall i, i <> j -> given i (drop_held (b, n) l) = given i l.
Proof.
  induction l as [|[x h] l IH]; intros j b n N H U O; [contradiction|]. cbn [drop_held fst]. rewrite given_cons in *.
  destruct (seg_eqb x (b, n)) eqn:E.
  - apply seg_eqb_eq in E. subst x. assert (h = j) as ->.
    { destruct (Nat.eq_dec h j) as [|D]; [assumption|]. exfalso. apply (O h D). rewrite given_cons, Nat.eqb_refl. left. reflexivity. }
    rewrite Nat.eqb_refl in *. split.
    + cbn [filter fst]. rewrite Z.eqb_refl. cbn [negb]. inversion N as [|? ? N1 N2]; subst. symmetry. apply filter_id. intros y Hy.
      destruct (Z.eqb_spec (fst y) b) as [Ey|Ey]; [|reflexivity]. exfalso. apply N1. rewrite <- (U y (or_intror Hy) Ey). exact Hy.
    + intros i Hi. rewrite given_cons. destruct (Nat.eqb_spec j i); [congruence|reflexivity].
  - assert (NE : x <> (b, n)) by (intros ->; rewrite seg_eqb_refl in E; discriminate).
    assert (O' : forall i, i <> j -> ~ In (b, n) (given i l)).
    { intros i Hi K. apply (O i Hi). rewrite given_cons. destruct (Nat.eqb h i); [right|]; exact K. }
    destruct (Nat.eqb_spec h j) as [->|D].
    + inversion N as [|? ? N1 N2]; subst. destruct H as [H|H]; [congruence|]. destruct (IH j b n N2 H) as [A B]; [intros y Hy; apply U; right; exact Hy|exact O'|].
      split.
      * rewrite given_cons, Nat.eqb_refl, A. cbn [filter]. destruct (Z.eqb_spec (fst x) b) as [Eb|Eb]; [|reflexivity]. exfalso. apply NE. apply U; [left; reflexivity|exact Eb].
      * intros i Hi. rewrite !given_cons, (B i Hi). reflexivity.
    + destruct (IH j b n N H U O') as [A B]. split.
      * rewrite given_cons. destruct (Nat.eqb_spec h j); [contradiction|]. exact A.
      * intros i Hi. rewrite !given_cons, (B i Hi). reflexivity.
Qed.

Lemma put_at {A} (f : nat -> A) j x : put f j x j = x.
Proof. unfold put. rewrite Nat.eqb_refl. reflexivity. Qed.
Lemma put_other {A} (f : nat -> A) j x i : i <> j -> put f j x i = f i.
Proof. intros H. unfold put. destruct (Nat.eqb_spec i j); [contradiction|reflexivity]. Qed.

(** The sources agree after a call. *)
Lemma agrees_put ss outs c c' t j s' out' q h m :
  agrees ss outs c -> leaves t j c c' q h m ->
  cached (lmem s') (lcache s') (cq q) -> csz q = lsz s' -> ccnt q = lcnt s' -> clk q = None ->
  (forall x, In x (lmap s') -> In x m) -> (forall i, i <> j -> forall x, In x (lmap (ss i)) -> In x m) ->
  given j h = out' -> (forall i, i <> j -> given i h = given i (held c)) ->
  (forall x, In x (lmap s') -> In x (lmap (ss j)) \/ forall y, In y (maps c) -> disj x y) ->
  agrees (put ss j s') (put outs j out') c'.
Proof.
  intros [A D] (L1 & L2 & L3 & L4 & L5) Q1 Q2 Q3 Q4 M1 M2 H1 H2 N. split.
  - intros i. destruct (Nat.eq_dec i j) as [->|Hi].
    + rewrite !put_at. constructor; rewrite ?L1, ?L2, ?L3; assumption.
    + rewrite !put_other by exact Hi. destruct (A i). constructor; rewrite ?(L4 i Hi), ?L2, ?L3; try assumption; [exact (M2 i Hi)|]. rewrite (H2 i Hi). assumption.
  - assert (NI : forall i, i <> j -> forall x y, In x (lmap s') -> In y (lmap (ss i)) -> disj x y).
    { intros i Hi x y Hx Hy. destruct (N x Hx) as [K|K]; [apply (D j i); auto|]. apply K. exact (ag_maps _ _ _ _ (A i) y Hy). }
    intros i k x y Hik Hx Hy. destruct (Nat.eq_dec i j) as [->|Hi]; destruct (Nat.eq_dec k j) as [->|Hk]; try contradiction;
      rewrite ?put_at in *; rewrite ?put_other in * by assumption.
    + exact (NI k Hk x y Hx Hy).
    + apply LightProofs.disj_sym. exact (NI i Hi y x Hy Hx).
    + exact (D i k x y Hik Hx Hy).
Qed.

Lemma call_ok : forall g ss outs c t j a, agrees ss outs c -> (forall i, lightreach g false (ss i) (outs i)) -> cat_ c t = PIdle -> kvalid g (ss j) (outs j) c a ->
  exists r s' k c', lightstep g (op_of a) (ss j) = Ok (r, s') /\ lcruns g c (ksolo t j a k) c' /\
    agrees (put ss j s') (put outs j (lafter (outs j) (op_of a) r)) c' /\ (forall u, cat_ c' u = cat_ c u) /\
    (forall x, In x (maps c') -> In x (maps c) \/ In x (lmap s')) /\ (forall x, In x (maps c) -> ~ In x (lmap (ss j)) -> In x (maps c')) /\
    (forall x, In x (maps c') -> In x (lmap (ss j)) -> In x (lmap s')).
Proof.
  intros g ss outs c t j a AG RE P [V V']. pose proof AG as [AJ D]. pose proof (AJ j) as [A1 A2 A3 A4 A5 A6].
  destruct (light_inv g false (ss j) (outs j) (RE j)) as (C & I & _).
  pose proof (cached_uniq _ _ _ _ (linv_cached _ _ _ I) A1) as EC.
  assert (OTH : forall i, i <> j -> forall x, In x (lmap (ss i)) -> In x (maps c)) by (intros i _ x Hx; exact (ag_maps _ _ _ _ (AJ i) x Hx)).
  destruct a as [n gr|b n|x v]; cbn [op_of] in *.
  - destruct V as (V1 & V2 & V3).
    assert (NEW : keep_max g < n \/ n <= keep_max g /\ (forall x, In x C -> snd x <> n) /\ find_in_cache (loop_bound (ss j)) n (ss j) = Ok (0, ss j) ->
      exists b, gr = Some b).
    { destruct gr as [b|]; [intros; exists b; reflexivity|]. intros [K|(K1 & K2 & K3)]; [lia|]. exfalso. destruct V3 as (_ & b & H1 & H2).
      apply (Permutation_in _ (li_perm _ _ _ I)) in H1. apply in_app_or in H1. destruct H1 as [H1|H1]; [exact (K2 _ H1 eq_refl)|contradiction]. }
    assert (FIN : forall b s' k c', gr = Some b -> lightstep g (LReq n gr) (ss j) = Ok (b, s') -> LInv s' ((b, n) :: outs j) C -> lmap s' = (b, n) :: lmap (ss j) ->
      lsz s' = lsz (ss j) -> lcnt s' = lcnt (ss j) + 1 ->
      lcruns g c (AReq t j n :: repeat (AGo t b) k) c' -> leaves t j c c' (mkCs (cq (srcs c j)) (csz (srcs c j)) (ccnt (srcs c j) + 1) None) (((b, n), j) :: held c) ((b, n) :: maps c) ->
      exists r s' k c', lightstep g (LReq n gr) (ss j) = Ok (r, s') /\ lcruns g c (ksolo t j (KReq n gr) k) c' /\
        agrees (put ss j s') (put outs j (lafter (outs j) (LReq n gr) r)) c' /\ (forall u, cat_ c' u = cat_ c u) /\
        (forall x, In x (maps c') -> In x (maps c) \/ In x (lmap s')) /\ (forall x, In x (maps c) -> ~ In x (lmap (ss j)) -> In x (maps c')) /\
        (forall x, In x (maps c') -> In x (lmap (ss j)) -> In x (lmap s'))).
    { intros b s' k c' -> E LI LM LZ LC RU LV. exists b, s', k, c'. split; [exact E|]. split; [exact RU|]. split; [|split; [|split; [|split]]].
      - cbn [lafter]. eapply agrees_put; [exact AG|exact LV| | | | | | | | | ]; cbn [cq csz ccnt clk].
        + rewrite <- EC. exact (linv_cached _ _ _ LI).
        + rewrite LZ. exact A2.
        + rewrite LC, A3. reflexivity.
        + reflexivity.
        + rewrite LM. intros x [<-|Hx]; [left; reflexivity|right; exact (A5 x Hx)].
        + intros i Hi x Hx. right. exact (OTH i Hi x Hx).
        + rewrite given_cons, Nat.eqb_refl, A6. reflexivity.
        + intros i Hi. rewrite given_cons. destruct (Nat.eqb_spec j i); [congruence|reflexivity].
        + rewrite LM. intros x [<-|Hx]; [right; exact V'|left; exact Hx].
      - apply LV.
      - destruct LV as (_ & _ & -> & _). rewrite LM. intros x [<-|Hx]; [right; left; reflexivity|left; exact Hx].
      - destruct LV as (_ & _ & -> & _). intros x Hx _. right. exact Hx.
      - rewrite LM. intros x _ Hx. right. exact Hx. }
    assert (FLD : forall b s', new_segment (Some b) n (ss j) = Ok (b, s') -> LInv s' ((b, n) :: outs j) C -> lsz s' = lsz (ss j) /\ lcnt s' = lcnt (ss j) + 1).
    { intros b s' E LI. rewrite (li_sz _ _ _ LI), (li_sz _ _ _ I), (li_cnt _ _ _ LI), (li_cnt _ _ _ I). cbn [length]. lia. }
    destruct (Z.leb_spec n (keep_max g)) as [K|K].
    + destruct (find_ok (ss j) (outs j) C n (loop_bound (ss j)) I (len_C _ _ _ I) V1) as [[F1 F2]|(b & s' & C' & F1 & F2 & F3 & F4 & F5 & F6 & F7 & F8 & C1 & C2 & F9 & F10 & F11)].
      * destruct NEW as (b & Eg); [right; auto|]. rewrite Eg in V3.
        destruct (new_ok (ss j) (outs j) C n b I V1 V2 V3) as (s' & N1 & N2 & N3 & _). destruct (FLD b s' N1 N2) as [G1 G2].
        destruct (run_miss g t j n b c P A4 K) as (k & c' & RU & LV); [rewrite <- EC; exact (take_none n C F1)|].
        apply (FIN b s' k c' Eg); try assumption. rewrite Eg. cbn [lightstep]. unfold request. destruct (Z.eqb_spec n 0); [lia|].
        unfold keep. cbn [negb orb]. rewrite andb_true_r. destruct (Z.leb_spec n (keep_max g)); [|lia]. rewrite F2. cbn [rbind Z.eqb]. exact N1.
      * destruct (run_hit g t j n (kgrant (KReq n gr)) c (b, n) (C1 ++ C2) P A4 K) as (k & c' & RU & LV); [rewrite <- EC, F9; exact (take_first n b C1 C2 F11)|].
        exists b, s', k, c'. split.
        { cbn [lightstep]. unfold request. destruct (Z.eqb_spec n 0); [lia|]. unfold keep. cbn [negb orb]. rewrite andb_true_r.
          destruct (Z.leb_spec n (keep_max g)); [|lia]. rewrite F1. cbn [rbind]. destruct (Z.eqb_spec b 0); [lia|reflexivity]. }
        split; [exact RU|]. split; [|split; [|split; [|split]]].
        -- cbn [lafter]. eapply agrees_put; [exact AG|exact LV| | | | | | | | | ]; cbn [cq csz ccnt clk snd].
           ++ rewrite <- F10. exact (linv_cached _ _ _ F3).
           ++ rewrite A2, (li_sz _ _ _ F3), (li_sz _ _ _ I), F9, F10, !total_app. cbn [LightSpec.total]. lia.
           ++ rewrite A3, (li_cnt _ _ _ F3), (li_cnt _ _ _ I). cbn [length]. lia.
           ++ reflexivity.
           ++ rewrite F4. exact A5.
           ++ exact OTH.
           ++ rewrite given_cons, Nat.eqb_refl, A6. reflexivity.
           ++ intros i Hi. rewrite given_cons. destruct (Nat.eqb_spec j i); [congruence|reflexivity].
           ++ rewrite F4. auto.
        -- apply LV.
        -- destruct LV as (_ & _ & -> & _). auto.
        -- destruct LV as (_ & _ & -> & _). auto.
        -- rewrite F4. auto.
    + destruct NEW as (b & Eg); [left; exact K|]. rewrite Eg in V3.
      destruct (new_ok (ss j) (outs j) C n b I V1 V2 V3) as (s' & N1 & N2 & N3 & _). destruct (FLD b s' N1 N2) as [G1 G2].
      destruct (run_new g t j n b c P A4 K) as (k & c' & RU & LV).
      apply (FIN b s' k c' Eg); try assumption. rewrite Eg. cbn [lightstep]. unfold request. destruct (Z.eqb_spec n 0); [lia|].
      unfold keep. cbn [negb orb]. rewrite andb_true_r. destruct (Z.leb_spec n (keep_max g)); [lia|]. cbn [rbind Z.eqb]. exact N1.
  - destruct (free_ok g (ss j) (outs j) C b n I V') as (s' & C' & E & LI & CA & _).
    pose proof (li_nd _ _ _ I) as ND. destruct (nodup_app_inv _ _ _ ND) as (_ & NDO & _).
    pose proof (li_in_out _ _ _ _ I V') as HM.
    assert (Uq : forall y, In y (lmap (ss j)) -> fst y = b -> y = (b, n)) by (intros y Hy Ey; apply (same_base _ _ _ y (b, n) I Hy HM); exact Ey).
    assert (ONLY : forall i, i <> j -> ~ In (b, n) (lmap (ss i))).
    { intros i Hi K. specialize (D i j _ _ Hi K HM). destruct (li_ok _ _ _ I _ HM) as (_ & Z & _). unfold disj in D. cbn [fst snd] in *. lia. }
    destruct (drop_given (held c) j b n) as [G1 G2].
    { rewrite A6. exact NDO. }
    { rewrite A6. exact V'. }
    { rewrite A6. intros y Hy. apply Uq. exact (li_in_out _ _ _ _ I Hy). }
    { intros i Hi K. rewrite (ag_out _ _ _ _ (AJ i)) in K. destruct (light_inv g false (ss i) (outs i) (RE i)) as (Ci & Ii & _). exact (ONLY i Hi (li_in_out _ _ _ _ Ii K)). }
    rewrite A6 in G1. assert (CN : lcnt s' = lcnt (ss j) - 1).
    { rewrite (li_cnt _ _ _ LI), (li_cnt _ _ _ I). destruct (filter_out (outs j) b n NDO V' (fun x Hx => Uq x (li_in_out _ _ _ _ I Hx))) as [_ PL]. rewrite PL. lia. }
    destruct CA as [(K1 & K2 & M & ->)|(K & M & ->)].
    + destruct (run_keep g t j (b, n) (kgrant (KFree b n)) c P A4 K1) as (k & c' & RU & LV); [rewrite A2; exact K2|].
      exists 0, s', k, c'. split; [exact E|]. split; [exact RU|]. split; [|split; [|split; [|split]]].
      * cbn [lafter]. eapply agrees_put; [exact AG|exact LV| | | | | | | | | ]; cbn [cq csz ccnt clk snd].
        -- rewrite <- EC. exact (linv_cached _ _ _ LI).
        -- rewrite A2, (li_sz _ _ _ LI), (li_sz _ _ _ I). cbn [LightSpec.total]. lia.
        -- rewrite A3, CN. reflexivity.
        -- reflexivity.
        -- rewrite M. exact A5.
        -- exact OTH.
        -- exact G1.
        -- exact G2.
        -- rewrite M. auto.
      * apply LV.
      * destruct LV as (_ & _ & -> & _). auto.
      * destruct LV as (_ & _ & -> & _). auto.
      * rewrite M. auto.
    + destruct (run_unmap g t j (b, n) (kgrant (KFree b n)) c P A4) as (k & c' & RU & LV).
      * rewrite A2. exact K.
      * apply existsb_exists. exists (b, n). split; [exact (A5 _ HM)|apply seg_eqb_refl].
      * assert (MM : forall x, In x (lmap s') <-> In x (lmap (ss j)) /\ x <> (b, n)).
        { intros x. rewrite M, filter_In. split.
          - intros [H1 H2]. split; [exact H1|]. intros ->. cbn [fst] in H2. lia.
          - intros [H1 H2]. split; [exact H1|]. destruct (Z.eqb_spec (fst x) b) as [Ex|Ex]; [exfalso; exact (H2 (Uq x H1 Ex))|reflexivity]. }
        assert (FF : forall x, In x (filter (fun y => negb (seg_eqb (b, n) y)) (maps c)) <-> In x (maps c) /\ x <> (b, n)).
        { intros x. rewrite filter_In. destruct (seg_eqb (b, n) x) eqn:Eq.
          - apply seg_eqb_eq in Eq. split; [intros [_ H]; discriminate|intros [_ H]; congruence].
          - split; [intros [H _]; split; [exact H|intros ->; rewrite seg_eqb_refl in Eq; discriminate]|intros [H _]; split; [exact H|reflexivity]]. }
        exists 0, s', k, c'. split; [exact E|]. split; [exact RU|]. split; [|split; [|split; [|split]]].
        -- cbn [lafter]. eapply agrees_put; [exact AG|exact LV| | | | | | | | | ]; cbn [cq csz ccnt clk snd].
           ++ rewrite <- EC. exact (linv_cached _ _ _ LI).
           ++ rewrite A2, (li_sz _ _ _ LI), (li_sz _ _ _ I). reflexivity.
           ++ rewrite A3, CN. reflexivity.
           ++ reflexivity.
           ++ intros x Hx. apply MM in Hx. apply FF. split; [apply A5; tauto|tauto].
           ++ intros i Hi x Hx. apply FF. split; [exact (OTH i Hi x Hx)|]. intros ->. exact (ONLY i Hi Hx).
           ++ exact G1.
           ++ exact G2.
           ++ intros x Hx. apply MM in Hx. left. tauto.
        -- apply LV.
        -- destruct LV as (_ & _ & -> & _). intros x Hx. apply FF in Hx. left. tauto.
        -- destruct LV as (_ & _ & -> & _). intros x Hx Hn. apply FF. split; [exact Hx|]. intros ->. contradiction.
        -- destruct LV as (_ & _ & -> & _). intros x Hx Hy. apply FF in Hx. apply MM. tauto.
  - destruct V as (b & n & V1 & V2). pose proof (write_ok (ss j) (outs j) C x v b n I V1 V2) as LI.
    exists 0, (lset_mem (ss j) (upd (lmem (ss j)) x v)), 0%nat, c. split; [reflexivity|]. split; [constructor|]. split; [|split; [reflexivity|cbn; auto]].
    cbn [lafter]. eapply (agrees_put ss outs c c t j _ (outs j) (srcs c j) (held c) (maps c)); cbn; try assumption; try auto.
    + unfold leaves. auto.
    + rewrite <- EC. exact (linv_cached _ _ _ LI).
Qed.

(** A call run alone is an execution of the model with several threads. *)
Definition waits (s : lcst) (t : nat) : option Z :=
  match cat_ s t with
  | PLock j n | PFind j n => match take n (cq (srcs s j)) with None => Some n | _ => None end
  | PUnl _ n None | PMap _ n => Some n
  | _ => None
  end.
Lemma waits_step : forall g t a s s', lcstep g (AGo t a) s = Ok s' -> forall n, waits s' t = Some n -> waits s t = Some n /\ maps s' = maps s.
Proof.
  intros g t a s s' E n W. cbn [lcstep] in E. unfold waits in *. destruct (cat_ s t) eqn:P.
  all: try (injection E as <-; cbn [cat_] in W; rewrite ?place_at, ?P in W; discriminate W).
  - destruct (clk (srcs s j)) eqn:K; injection E as <-.
    + rewrite P in W. split; [exact W|reflexivity].
    + cbn [cat_ srcs] in W. rewrite place_at, src_at in W. cbn [cq] in W. split; [exact W|reflexivity].
  - destruct (take n0 (cq (srcs s j))) as [[x l]|] eqn:T; injection E as <-; cbn [cat_] in W; rewrite place_at in W; [discriminate W|]. split; [exact W|reflexivity].
  - destruct r as [x|]; injection E as <-; cbn [cat_] in W; rewrite place_at in W; [discriminate W|]. split; [exact W|reflexivity].
  - injection E as <-. cbn [cat_] in W. rewrite place_at in W. destruct ((snd s0 <=? keep_max g) && (csz (srcs s j) <=? keep_mem g)); discriminate W.
  - destruct (clk (srcs s j)) eqn:K; injection E as <-; [rewrite P in W|cbn [cat_] in W; rewrite place_at in W]; discriminate W.
  - destruct (existsb (seg_eqb s0) (maps s)); [|discriminate E]. injection E as <-. cbn [cat_] in W. rewrite place_at in W. discriminate W.
  - destruct (clk (srcs s j)) eqn:K; injection E as <-; [rewrite P in W|cbn [cat_] in W; rewrite place_at in W]; discriminate W.
  - destruct (ccnt (srcs s j) =? 0); [|discriminate E]. injection E as <-. cbn [cat_] in W. rewrite place_at in W. discriminate W.
Qed.
Lemma go_reach : forall g N S home t a k s s', (t < N)%nat -> lcreach g N S home s -> (forall n, waits s t = Some n -> forall x, In x (maps s) -> apart (a, n) x) ->
  lcruns g s (repeat (AGo t a) k) s' -> lcreach g N S home s'.
Proof.
  intros g N S home t a. induction k as [|k IH]; intros s s' Ht R W H; cbn [repeat] in H; inversion H; subst; [exact R|].
  apply (IH s1 s' Ht); [|intros n Wn; destruct (waits_step g t a s s1 H3 n Wn) as [W1 W2]; rewrite W2; exact (W n W1)|assumption].
  eapply lcreach_s; [exact R| |eassumption]. split; [exact Ht|]. intros j n P. apply W. unfold waits. rewrite P. reflexivity.
Qed.

Lemma serial_reach : forall g S ss outs, serial g S ss outs -> forall i, lightreach g false (ss i) (outs i).
Proof.
  induction 1 as [m|ss outs j a r s' R IH Hj V V' E]; intros i; [apply light_init|].
  destruct (Nat.eq_dec i j) as [->|Hi]; [rewrite !put_at|rewrite !put_other by exact Hi; apply IH]. eapply light_step; [exact (IH j)|exact V|exact E].
Qed.

Lemma serial_ok : forall g S ss outs, serial g S ss outs ->
  exists c, lcreach g 1 S true c /\ agrees ss outs c /\ calm_lc c /\ forall x, In x (maps c) <-> exists j, In x (lmap (ss j)).
Proof.
  induction 1 as [m|ss outs j a r s' R IH Hj V V' E].
  - exists lc0. split; [constructor|]. split; [|split; [intros t; reflexivity|]].
    + split; [|intros ? ? ? ? _ []]. intros j. constructor; cbn; try reflexivity. intros x [].
    + intros x. cbn. split; [intros []|intros (_ & [])].
  - destruct IH as (c & RC & AG & CA & MA). pose proof (serial_reach g S ss outs R) as RE.
    assert (KV : kvalid g (ss j) (outs j) c a).
    { split; [exact V|]. destruct a as [n [b|]|b n|x v]; try exact V'. intros x Hx. apply MA in Hx. destruct Hx as (i & Hx). destruct (V' i) as (_ & _ & F). exact (F x Hx). }
    destruct (call_ok g ss outs c 0 j a AG RE (CA 0%nat) KV) as (r1 & s1 & k & c' & E1 & RU & AG' & PL & M1 & M2 & M3).
    rewrite E in E1. injection E1 as <- <-. exists c'. split; [|split; [exact AG'|split; [intros t; rewrite PL; apply CA|]]].
    + pose proof AG as [AJ _]. pose proof (AJ j) as [A1 A2 A3 A4 A5 A6]. unfold ksolo in RU. destruct a as [n gr|b n|x v]; cbn [kstart app] in RU.
      * inversion RU as [|? ? s2 ? ? E2 RU2]; subst. apply (go_reach g 1 S true 0 (kgrant (KReq n gr)) k s2 c'); [lia| | |exact RU2].
        -- eapply lcreach_s; [exact RC| |exact E2]. cbn. destruct V as (V1 & _). split; [lia|]. split; [exact Hj|exact V1].
        -- intros n' W. cbn [lcstep] in E2. rewrite (CA 0%nat) in E2. injection E2 as <-. cbn [maps]. unfold waits in W. cbn [cat_ srcs] in W. rewrite place_at in W.
           assert (n' = n) as ->. { destruct (n <=? keep_max g); [|congruence]. destruct (take n (cq (srcs c j))); congruence. }
           destruct gr as [b|]; cbn [kgrant]; [exact (proj2 KV)|].
           exfalso. destruct V as (V1 & V2 & V3 & b & H1 & H2). destruct (Z.leb_spec n (keep_max g)); [|lia].
           destruct (light_inv g false (ss j) (outs j) (RE j)) as (C & I & _). pose proof (cached_uniq _ _ _ _ (linv_cached _ _ _ I) A1) as EC.
           apply (Permutation_in _ (li_perm _ _ _ I)) in H1. apply in_app_or in H1. destruct H1 as [H1|H1]; [|contradiction].
           rewrite <- EC in W. destruct (in_split _ _ H1) as (D1 & D2 & ED). clear - W ED.
           assert (T : take n C <> None). { rewrite ED. clear. induction D1 as [|x D1 IH]; cbn; [rewrite Z.eqb_refl; discriminate|]. destruct (snd x =? n); [discriminate|]. destruct (take n (D1 ++ (b, n) :: D2)) as [[? ?]|]; [discriminate|contradiction]. }
           destruct (take n C); [discriminate W|contradiction].
      * inversion RU as [|? ? s2 ? ? E2 RU2]; subst. apply (go_reach g 1 S true 0 (kgrant (KFree b n)) k s2 c'); [lia| | |exact RU2].
        -- eapply lcreach_s; [exact RC| |exact E2]. cbn. split; [lia|]. split; [exact Hj|]. split; [apply CA|]. exists j. split; [|auto]. apply in_given. rewrite A6. exact V'.
        -- intros n' W. cbn [lcstep] in E2. rewrite (CA 0%nat) in E2. injection E2 as <-. unfold waits in W. cbn [cat_] in W. rewrite place_at in W. discriminate W.
      * apply (go_reach g 1 S true 0 (kgrant (KWrite x v)) k c c'); [lia|exact RC| |exact RU]. intros n' W. unfold waits in W. rewrite (CA 0%nat) in W. discriminate W.
    + intros x. split.
      * intros Hx. destruct (M1 x Hx) as [H|H]; [|exists j; rewrite put_at; exact H]. apply MA in H. destruct H as (i & H).
        destruct (Nat.eq_dec i j) as [->|Hi]; [exists j; rewrite put_at; exact (M3 x Hx H)|exists i; rewrite put_other by exact Hi; exact H].
      * intros (i & H). destruct AG' as [AJ' _]. exact (ag_maps _ _ _ _ (AJ' i) x H).
Qed.

(** Cleanup. *)
Lemma clean_ok : forall g ss outs c t j, agrees ss outs c -> (forall i, lightreach g false (ss i) (outs i)) -> cat_ c t = PIdle ->
  match cleanup (loop_bound (ss j)) (ss j) with
  | Ok s' => exists c', lcruns g c (AClean t j :: repeat (AGo t 0) 2) c' /\ lmap s' = [] /\ (forall x, In x (maps c') <-> In x (maps c) /\ ~ In x (lmap (ss j))) /\
      cat_ c' t = PIdle /\ clk (srcs c' j) = Some t
  | Abort => exists c', lcruns g c [AClean t j; AGo t 0] c' /\ lcstep g (AGo t 0) c' = Abort
  | _ => False
  end.
Proof.
  intros g ss outs c t j [AJ D] RE P. destruct (AJ j) as [A1 A2 A3 A4 A5 A6].
  destruct (light_inv g false (ss j) (outs j) (RE j)) as (C & I & _). pose proof (cached_uniq _ _ _ _ (linv_cached _ _ _ I) A1) as EC.
  assert (S1 : forall l s2, lcruns g (mkLc (src_of (mkLc (srcs c) (held c) (maps c) (place_of c t (PCLock j))) j (mkCs (cq (srcs c j)) (csz (srcs c j)) (ccnt (srcs c j)) (Some t)))
      (held c) (maps c) (place_of (mkLc (srcs c) (held c) (maps c) (place_of c t (PCLock j))) t (PCGo j))) l s2 -> lcruns g c (AClean t j :: AGo t 0 :: l) s2).
  { intros l s2 H. eapply lcruns_s; [cbn [lcstep]; rewrite P; reflexivity|]. eapply lcruns_s; [|exact H]. cbn [lcstep]. see. rewrite A4. reflexivity. }
  destruct (outs j) as [|o os] eqn:EO.
  - pose proof (RE j) as RJ. rewrite EO in RJ. destruct (light_cleanup g false (ss j) RJ) as (s' & -> & M).
    eexists. split; [cbn [repeat]; apply S1; eapply lcruns_s; [|constructor]; cbn [lcstep]; see; rewrite A3, (li_cnt _ _ _ I); reflexivity|].
    split; [exact M|]. split; [|split; [see; reflexivity|see; reflexivity]]. intros x. cbn [maps]. rewrite filter_In. see.
    rewrite <- EC. pose proof (li_perm _ _ _ I) as PM. rewrite app_nil_r in PM.
    assert (EX : existsb (seg_eqb x) C = true <-> In x (lmap (ss j))).
    { rewrite existsb_exists. split.
      - intros (y & H1 & H2). apply seg_eqb_eq in H2. subst y. exact (Permutation_in _ (Permutation_sym PM) H1).
      - intros H. exists x. split; [exact (Permutation_in _ PM H)|apply seg_eqb_refl]. }
    destruct (existsb (seg_eqb x) C); cbn [negb].
    + split; [intros [_ K]; discriminate|intros [_ K]; exfalso; apply K; apply EX; reflexivity].
    + split; intros [H _]; (split; [exact H|]); [intros K; apply EX in K; discriminate|reflexivity].
  - pose proof (RE j) as RJ. rewrite EO in RJ. rewrite (light_cleanup_held g false (ss j) (o :: os) RJ) by discriminate.
    eexists. split; [apply S1; constructor|]. cbn [lcstep]. see. rewrite A3, (li_cnt _ _ _ I). reflexivity.
Qed.
