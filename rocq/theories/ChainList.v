(** Free lists: pure lemmas on rings and specifications of removal and insertion. *)
From Verif Require Import Word Res Mem SizeClassModel SizeClassProofs ChainModel Wp ChainInv ChainZip.
From Coq Require Import ZArith List Bool Lia.
Import ListNotations.
Open Scope Z_scope.

(** ** Doubly linked segments over arbitrary link functions *)
Fixpoint dsegf (nx pv : Z -> Z) (x : Z) (l : list Z) (e : Z) : Prop :=
  match l with
  | [] => nx x = e /\ pv e = x
  | y :: l' => nx x = y /\ pv y = x /\ dsegf nx pv y l' e
  end.

Lemma dseg_dsegf m l : forall x e, dseg m x l e <-> dsegf (nxt m) (prv m) x l e.
Proof. induction l as [|y l IH]; intros x e; cbn [dseg dsegf]; [tauto|]. rewrite IH. tauto. Qed.

Lemma dsegf_app nx pv l1 a l2 : forall x e,
  dsegf nx pv x (l1 ++ a :: l2) e <-> dsegf nx pv x l1 a /\ dsegf nx pv a l2 e.
Proof.
  induction l1 as [|y l1 IH]; intros x e; cbn [dsegf app]; [tauto|]. rewrite IH. tauto.
Qed.

Lemma dsegf_frame nx pv nx' pv' l : forall x e,
  (forall u, In u (x :: l) -> nx' u = nx u) -> (forall v, In v (l ++ [e]) -> pv' v = pv v) ->
  dsegf nx pv x l e -> dsegf nx' pv' x l e.
Proof.
  induction l as [|y l IH]; intros x e H1 H2 H; cbn [dsegf app] in *.
  - rewrite H1 by (left; auto). rewrite H2 by (left; auto). exact H.
  - destruct H as (K1 & K2 & K3). rewrite H1 by (left; auto). rewrite H2 by (left; auto).
    split; [auto|]. split; [auto|]. apply IH; auto.
    + intros u Hu. apply H1. right. exact Hu.
    + intros v Hv. apply H2. right. exact Hv.
Qed.

Lemma dsegf_last nx pv l x e : dsegf nx pv x l e ->
  exists P, nx P = e /\ pv e = P /\ ((l = [] /\ P = x) \/ exists l', l = l' ++ [P] /\ dsegf nx pv x l' P).
Proof.
  destruct l as [|y l _] using rev_ind; intros H.
  - cbn in H. exists x. tauto.
  - apply dsegf_app in H as (H1 & H2). cbn [dsegf] in H2. exists y. split; [tauto|]. split; [tauto|].
    right. exists l. auto.
Qed.

Lemma dsegf_first nx pv l x e : dsegf nx pv x l e ->
  exists N, nx x = N /\ pv N = x /\ ((l = [] /\ N = e) \/ exists l', l = N :: l' /\ dsegf nx pv N l' e).
Proof.
  destruct l as [|y l]; intros H; cbn in H.
  - exists e. tauto.
  - exists y. split; [tauto|]. split; [tauto|]. right. exists l. tauto.
Qed.

Lemma dsegf_remove nx pv nx' pv' x L1 a L2 P N :
  dsegf nx pv x (L1 ++ a :: L2) x -> NoDup (x :: L1 ++ a :: L2) ->
  P = pv a -> N = nx a ->
  nx' P = N -> pv' N = P ->
  (forall u, In u (x :: L1 ++ L2) -> u <> P -> nx' u = nx u) ->
  (forall v, In v (x :: L1 ++ L2) -> v <> N -> pv' v = pv v) ->
  dsegf nx' pv' x (L1 ++ L2) x /\ In P (x :: L1) /\ In N (x :: L2) /\ (N = P <-> L1 ++ L2 = []) /\ (L1 ++ L2 = [] -> P = x).
Proof.
  intros H ND EP EN H1 H2 H3 H4.
  apply dsegf_app in H as (HA & HB).
  apply dsegf_last in HA as (P0 & A1 & A2 & A3). assert (E0 : P0 = P) by congruence. rewrite E0 in *. clear E0 P0.
  apply dsegf_first in HB as (N0 & B1 & B2 & B3). assert (E0 : N0 = N) by congruence. rewrite E0 in *. clear E0 N0.
  clear EP EN A1 A2 B1 B2.
  assert (HP : In P (x :: L1)).
  { destruct A3 as [[-> ->]|(l' & -> & _)]; [left; auto|]. right. rewrite in_app_iff. right. left. auto. }
  assert (HN : In N (x :: L2)).
  { destruct B3 as [[-> ->]|(l' & -> & _)]; [left; auto|]. right. left. auto. }
  assert (ND' : NoDup (x :: L1 ++ L2)).
  { rewrite app_comm_cons in *. eapply NoDup_remove_1. exact ND. }
  assert (DJ : forall u, In u L1 -> In u L2 -> False).
  { intros u U1 U2. inversion ND' as [|? ? _ ND2]; subst. clear - U1 U2 ND2.
    induction L1 as [|y L1 IH]; cbn in *; [contradiction|]. inversion ND2 as [|? ? K1 K2]; subst.
    destruct U1 as [->|U1]; [apply K1; rewrite in_app_iff; auto|auto]. }
  assert (NX : ~ In x (L1 ++ L2)) by (inversion ND'; auto).
  assert (NX1 : ~ In x L1) by (intros K; apply NX; rewrite in_app_iff; auto).
  assert (NX2 : ~ In x L2) by (intros K; apply NX; rewrite in_app_iff; auto).
  split; [|split; [exact HP|split; [exact HN|split]]].
  - destruct A3 as [[-> ->]|(l1 & -> & A3)], B3 as [[-> ->]|(l2 & -> & B3)]; cbn [app] in *.
    + cbn. auto.
    + cbn [dsegf]. split; [auto|]. split; [auto|].
      apply (dsegf_frame nx pv); auto.
      * intros u Hu. apply H3; [right; exact Hu|]. intros ->. apply NX2. exact Hu.
      * intros v Hv. rewrite in_app_iff in Hv. apply H4.
        -- cbn in *. tauto.
        -- intros ->. apply NoDup_cons_iff in ND' as [K1 K2]. apply NoDup_cons_iff in K2 as [K3 K4].
           destruct Hv as [Hv|[->|[]]]; [auto|]. apply NX2. left. auto.
    + rewrite app_nil_r in *. apply dsegf_app. split.
      * apply (dsegf_frame nx pv); auto.
        -- intros u Hu. apply H3.
           ++ cbn [In] in *. rewrite in_app_iff. tauto.
           ++ intros ->. destruct Hu as [->|Hu]; [apply NX1; rewrite in_app_iff; cbn; auto|].
              apply NoDup_cons_iff in ND' as [K1 K2]. apply NoDup_remove_2 in K2. rewrite app_nil_r in K2. auto.
        -- intros v Hv. apply H4.
           ++ cbn [In]. rewrite in_app_iff in *. tauto.
           ++ intros ->. auto.
      * cbn. auto.
    + assert (NDl : NoDup (l1 ++ P :: N :: l2)).
      { apply NoDup_cons_iff in ND' as [K1 K2]. rewrite <- app_assoc in K2. exact K2. }
      rewrite <- app_assoc in *. cbn [app] in *. apply dsegf_app. cbn [dsegf].
      assert (NP : ~ In P (l1 ++ N :: l2)) by (apply NoDup_remove_2 in NDl; auto).
      assert (NN : ~ In N (l1 ++ P :: l2)).
      { replace (l1 ++ P :: N :: l2) with ((l1 ++ [P]) ++ N :: l2) in NDl by (rewrite <- app_assoc; auto).
        apply NoDup_remove_2 in NDl. rewrite <- app_assoc in NDl. auto. }
      rewrite !in_app_iff in *. cbn [In] in *.
      split; [|split; [auto|split; [auto|]]].
      * apply (dsegf_frame nx pv); auto.
        -- intros u Hu. cbn in Hu. apply H3.
           ++ cbn [In]. rewrite in_app_iff. cbn. tauto.
           ++ intros ->. intuition subst; tauto.
        -- intros v Hv. rewrite in_app_iff in Hv. cbn in Hv. apply H4.
           ++ cbn [In]. rewrite in_app_iff. cbn. tauto.
           ++ intros ->. intuition subst; tauto.
      * apply (dsegf_frame nx pv); auto.
        -- intros u Hu. cbn in Hu. apply H3.
           ++ cbn [In]. rewrite in_app_iff. cbn. tauto.
           ++ intros ->. intuition subst; tauto.
        -- intros v Hv. rewrite in_app_iff in Hv. cbn in Hv. apply H4.
           ++ cbn [In]. rewrite in_app_iff. cbn. tauto.
           ++ intros ->. inversion NDl; subst; intuition subst; try tauto.
              all: apply NoDup_remove_1 in NDl; apply NoDup_remove_2 in NDl; rewrite in_app_iff in NDl; tauto.
  - split.
    + intros E. rewrite <- E in *. clear E. destruct HP as [E|HP].
      * rewrite <- E in *. clear E. destruct A3 as [[-> _]|(l' & -> & _)]; [|exfalso; apply NX1; rewrite in_app_iff; cbn; auto].
        destruct B3 as [[-> _]|(l' & -> & _)]; [reflexivity|]. exfalso. apply NX2. left; auto.
      * destruct HN as [E|HN]; [rewrite <- E in *; tauto|]. exfalso. eauto.
    + intros E. apply app_eq_nil in E as [-> ->]. cbn in *. intuition congruence.
  - intros E. apply app_eq_nil in E as [-> ->]. cbn in *. intuition congruence.
Qed.

Lemma dsegf_insert nx pv nx' pv' x L1 a L2 P N :
  dsegf nx pv x (L1 ++ L2) x -> NoDup (x :: L1 ++ a :: L2) ->
  P = last (x :: L1) x -> N = hd x L2 ->
  nx' P = a -> pv' a = P -> nx' a = N -> pv' N = a ->
  (forall u, In u (x :: L1 ++ L2) -> u <> P -> nx' u = nx u) ->
  (forall v, In v (x :: L1 ++ L2) -> v <> N -> pv' v = pv v) ->
  dsegf nx' pv' x (L1 ++ a :: L2) x.
Proof.
  intros H ND EP EN H1 H2 H3 H4 H5 H6.
  assert (ND' : NoDup (x :: L1 ++ L2)).
  { rewrite app_comm_cons in *. eapply NoDup_remove_1. exact ND. }
  assert (NX : ~ In x (L1 ++ L2)) by (inversion ND'; auto).
  apply dsegf_app.
  destruct L1 as [|P0 l1 _] using rev_ind; [cbn in EP; subst P|
    assert (P = P0) by (subst P; rewrite app_comm_cons; apply last_last); subst P0];
  (destruct L2 as [|N0 l2]; cbn [hd] in EN; subst N).
  - cbn [dsegf]. auto.
  - cbn [app dsegf] in *. split; [auto|]. split; [auto|]. split; [auto|].
    destruct H as (_ & _ & H). apply (dsegf_frame nx pv); auto.
    + intros u Hu. apply H5; [right; exact Hu|]. intros ->. tauto.
    + intros v Hv. rewrite in_app_iff in Hv. apply H6.
      * cbn in *. tauto.
      * intros ->. apply NoDup_cons_iff in ND' as [K1 K2]. apply NoDup_cons_iff in K2 as [K3 K4].
        destruct Hv as [Hv|[Hv|[]]]; [tauto|]. apply K1. left. auto.
  - rewrite app_nil_r in *. split; [|cbn; auto]. apply dsegf_app in H as (HA & HB). apply dsegf_app.
    split; [|cbn; auto].
    apply (dsegf_frame nx pv); auto.
    + intros u Hu. apply H5.
      * cbn [In] in *. rewrite in_app_iff. tauto.
      * intros ->. rewrite in_app_iff in NX. apply NoDup_cons_iff in ND' as [K1 K2]. apply NoDup_remove_2 in K2.
        rewrite app_nil_r in K2. cbn [In] in *. destruct Hu as [Hu|Hu]; [rewrite Hu in *; tauto|tauto].
    + intros v Hv. apply H6.
      * cbn [In]. rewrite in_app_iff in *. tauto.
      * intros ->. tauto.
  - rewrite <- app_assoc in *. cbn [app] in *.
    assert (NDl : NoDup (l1 ++ P :: N0 :: l2)) by (inversion ND'; auto).
    assert (NP : ~ In P (l1 ++ N0 :: l2)) by (apply NoDup_remove_2 in NDl; auto).
    assert (NN : ~ In N0 (l1 ++ P :: l2)).
    { replace (l1 ++ P :: N0 :: l2) with ((l1 ++ [P]) ++ N0 :: l2) in NDl by (rewrite <- app_assoc; auto).
      apply NoDup_remove_2 in NDl. rewrite <- app_assoc in NDl. auto. }
    apply dsegf_app in H as (HA & HB). cbn [dsegf] in HB. destruct HB as (_ & _ & HB).
    rewrite !in_app_iff in *. cbn [In] in *.
    split.
    + apply dsegf_app. split; [|cbn; auto].
      apply (dsegf_frame nx pv); auto.
      * intros u Hu. cbn in Hu. apply H5.
        -- cbn [In]. rewrite in_app_iff. cbn. tauto.
        -- intros ->. intuition subst; tauto.
      * intros v Hv. rewrite in_app_iff in Hv. cbn in Hv. apply H6.
        -- cbn [In]. rewrite in_app_iff. cbn. tauto.
        -- intros ->. intuition subst; tauto.
    + cbn [dsegf]. split; [auto|]. split; [auto|].
      apply (dsegf_frame nx pv); auto.
      * intros u Hu. cbn in Hu. apply H5.
        -- cbn [In]. rewrite in_app_iff. cbn. tauto.
        -- intros ->. intuition subst; tauto.
      * intros v Hv. rewrite in_app_iff in Hv. cbn in Hv. apply H6.
        -- cbn [In]. rewrite in_app_iff. cbn. tauto.
        -- intros ->. intuition subst; tauto.
Qed.
