(** Inductive invariant of the remote free queue and its consequences. *)
From Verif Require Import MpscfModel MpscfSpec.
From Coq Require Import ZArith List Bool Lia.
Import ListNotations.
Open Scope Z_scope.

(** ** Neighbours in a list *)
Definition adj (l : list Z) (x y : Z) : Prop := exists l1 l2, l = l1 ++ x :: y :: l2.

Lemma adj_in : forall l x y, adj l x y -> In x l /\ In y l.
Proof. intros l x y (l1 & l2 & ->). split; apply in_or_app; right; [left|right; left]; reflexivity. Qed.

Lemma adj_nil : forall x y, ~ adj [] x y.
Proof. intros x y (l1 & l2 & E). destruct l1; discriminate. Qed.

Lemma snoc_eq : forall (l1 l2 : list Z) a b, l1 ++ [a] = l2 ++ [b] -> l1 = l2 /\ a = b.
Proof. intros. apply app_inj_tail. assumption. Qed.

Lemma adj_snoc : forall l a x y, adj (l ++ [a]) x y -> adj l x y \/ (y = a /\ exists l', l = l' ++ [x]).
Proof.
  intros l a x y (l1 & l2 & E). destruct (@exists_last _ (y :: l2)) as (l3 & b & E3); [discriminate|].
  destruct l3 as [|y' l3].
  - cbn in E3. injection E3 as -> ->. right.
    assert (E' : l ++ [a] = (l1 ++ [x]) ++ [b]) by (rewrite <- app_assoc; exact E).
    apply snoc_eq in E'. destruct E' as [-> ->]. split; [reflexivity|exists l1; reflexivity].
  - injection E3 as -> ->. left.
    assert (E' : l ++ [a] = (l1 ++ x :: y' :: l3) ++ [b]) by (rewrite <- app_assoc; exact E).
    apply snoc_eq in E'. destruct E' as [-> _]. exists l1, l3. reflexivity.
Qed.

Lemma adj_app_l : forall l m x y, adj l x y -> adj (l ++ m) x y.
Proof. intros l m x y (l1 & l2 & ->). exists l1, (l2 ++ m). rewrite <- app_assoc. reflexivity. Qed.

Lemma adj_last : forall l x a, adj ((l ++ [x]) ++ [a]) x a.
Proof. intros. exists l, []. rewrite <- app_assoc. reflexivity. Qed.

Lemma adj_cons : forall l a x y, adj (a :: l) x y -> (x = a /\ exists l', l = y :: l') \/ adj l x y.
Proof.
  intros l a x y (l1 & l2 & E). destruct l1 as [|b l1].
  - injection E as -> ->. left. split; [reflexivity|exists l2; reflexivity].
  - injection E as -> ->. right. exists l1, l2. reflexivity.
Qed.

Lemma adj_tl : forall l a x y, adj l x y -> adj (a :: l) x y.
Proof. intros l a x y (l1 & l2 & ->). exists (a :: l1), l2. reflexivity. Qed.

(** In a list without repetition, an element splits it in one way. *)
Lemma nodup_split : forall (l1 l2 m1 m2 : list Z) x, NoDup (l1 ++ x :: l2) -> l1 ++ x :: l2 = m1 ++ x :: m2 ->
  l1 = m1 /\ l2 = m2.
Proof.
  induction l1 as [|a l1 IH]; intros l2 m1 m2 x ND E.
  - destruct m1 as [|b m1].
    + injection E as ->. split; reflexivity.
    + cbn in E. injection E as E1 E2. subst b. exfalso. cbn in ND. inversion ND as [|? ? HN _]; subst. apply HN. apply in_or_app. right; left; reflexivity.
  - destruct m1 as [|b m1].
    + cbn in E. injection E as E1 E2. subst a. exfalso. cbn in ND. inversion ND as [|? ? HN _]; subst. apply HN.
      apply in_or_app. right; left; reflexivity.
    + cbn in E. injection E as E1 E2. subst b. cbn in ND. inversion ND as [|? ? _ ND']; subst.
      destruct (IH l2 m1 m2 x ND' E2) as [-> ->]. split; reflexivity.
Qed.

Lemma adj_fun : forall l x y z, NoDup l -> adj l x y -> adj l x z -> y = z.
Proof.
  intros l x y z ND (l1 & l2 & E1) (m1 & m2 & E2). subst l.
  destruct (nodup_split _ _ _ _ _ ND E2) as [_ E]. injection E as -> _. reflexivity.
Qed.

Lemma adj_not_last : forall l x y l', NoDup l -> adj l x y -> l = l' ++ [x] -> False.
Proof.
  intros l x y l' ND (l1 & l2 & E1) E2. subst l. destruct (nodup_split _ _ _ _ _ ND E2) as [_ E]. discriminate.
Qed.

Lemma nodup_app_l : forall (l m : list Z), NoDup (l ++ m) -> NoDup l.
Proof.
  induction l as [|a l IH]; intros m H; [constructor|]. cbn in H. inversion H as [|? ? HN HD]; subst.
  constructor; [intros HI; apply HN, in_or_app; left; exact HI|exact (IH m HD)].
Qed.
Lemma nodup_app_r : forall (l m : list Z), NoDup (l ++ m) -> NoDup m.
Proof. induction l as [|a l IH]; intros m H; [exact H|]. cbn in H. inversion H; subst. apply IH; assumption. Qed.
Lemma nodup_app_x : forall (l m : list Z) x, NoDup (l ++ m) -> In x l -> In x m -> False.
Proof.
  induction l as [|a l IH]; intros m x H HI HJ; [destruct HI|]. cbn in H. inversion H as [|? ? HN HD]; subst.
  destruct HI as [->|HI]; [apply HN, in_or_app; right; exact HJ|exact (IH m x HD HI HJ)].
Qed.
Lemma nodup_snoc : forall (l : list Z) x, NoDup l -> ~ In x l -> NoDup (l ++ [x]).
Proof.
  induction l as [|a l IH]; intros x ND NI; cbn; [constructor; [intros []|constructor]|].
  inversion ND as [|? ? HN HD]; subst. constructor.
  - intros HI. apply in_app_or in HI. destruct HI as [HI|[->|[]]]; [exact (HN HI)|apply NI; left; reflexivity].
  - apply IH; [exact HD|intros HI; apply NI; right; exact HI].
Qed.

(** ** Projections of the trace *)
Lemma pubs_app : forall a b, pubs (a ++ b) = pubs a ++ pubs b.
Proof. induction a as [|[]a IH]; intros; cbn; rewrite ?IH; reflexivity. Qed.
Lemma dels_app : forall a b, dels (a ++ b) = dels a ++ dels b.
Proof. induction a as [|[]a IH]; intros; cbn; rewrite ?IH; reflexivity. Qed.
Lemma starts_app : forall t a b, starts_of t (a ++ b) = starts_of t a ++ starts_of t b.
Proof. induction a as [|[]a IH]; intros; cbn; rewrite ?IH; try reflexivity. destruct (Nat.eqb _ _); reflexivity. Qed.
Lemma pubs_of_app : forall t a b, pubs_of t (a ++ b) = pubs_of t a ++ pubs_of t b.
Proof. induction a as [|[]a IH]; intros; cbn; rewrite ?IH; try reflexivity. destruct (Nat.eqb _ _); reflexivity. Qed.
Lemma rets_app : forall t a b, rets_of t (a ++ b) = (rets_of t a + rets_of t b)%nat.
Proof. induction a as [|[]a IH]; intros; cbn; rewrite ?IH; try reflexivity. destruct (Nat.eqb _ _); reflexivity. Qed.

(** ** The invariant: [B] the batch taken by the consumer, [Q] the entries published since the last tail swap. *)
Definition pre (p : ppc) (e : Z) : Prop :=
  match p with PPay a _ | PNext1 a _ | PNext2 a _ | PSwap a _ => a = e | _ => False end.

Definition cinv (s : qst) (B Q : list Z) : Prop :=
  match cns s with
  | CIdle | CLoad => B = []
  | CClear h => B = [] /\ qhd s = h /\ h <> 0
  | CSwap h => B = [] /\ qhd s = 0 /\ exists l, Q = h :: l
  | CWait h t cur => exists B1 B2, B = B1 ++ cur :: B2 /\ (exists l, B = h :: l) /\ last B 0 = t /\
      (forall x y, adj (B1 ++ [cur]) x y -> nxt s x = y)
  | CAdv h t cur => exists B1 B2, B = B1 ++ cur :: B2 /\ (exists l, B = h :: l) /\ last B 0 = t /\
      (forall x y, adj (B1 ++ [cur]) x y -> nxt s x = y) /\ cur <> t /\ nxt s cur <> 0
  | CWalk e => e = List.hd 0 B /\ (forall x y, adj B x y -> nxt s x = y)
  | CDel e n => exists l, B = e :: l /\ n = List.hd 0 l /\ (forall x y, adj B x y -> nxt s x = y)
  | CBad => False
  end.

Record Inv (s : qst) (B Q : list Z) : Prop := {
  i_log : pubs (tr s) = dels (tr s) ++ map (fun e => (e, pay s e)) (B ++ Q);
  i_nd : NoDup (B ++ Q);
  i_nz : ~ In 0 (B ++ Q);
  i_busy : forall e, In e (B ++ Q) -> busy s e = true;
  i_tl : qtl s = last Q 0;
  i_link : forall x y, adj B x y \/ adj Q x y ->
    nxt s x = y \/ (nxt s x = 0 /\ exists t, prd s t = PLink y x);
  i_end : forall l x, B = l ++ [x] \/ Q = l ++ [x] -> nxt s x = 0;
  i_empty : Q = [] -> qhd s = 0;
  i_head : forall q l, Q = q :: l ->
    qhd s = q \/ (qhd s = 0 /\ ((exists t, prd s t = PLink q 0) \/ cns s = CSwap q));
  i_pl0 : forall t e, prd s t = PLink e 0 -> qhd s = 0 /\ (exists l, Q = e :: l) /\ (forall h, cns s <> CSwap h);
  i_plp : forall t e p, prd s t = PLink e p -> p <> 0 -> nxt s p = 0 /\ (adj B p e \/ adj Q p e);
  i_plu : forall t u e p p', prd s t = PLink e p -> prd s u = PLink e p' -> t = u;
  i_pre : forall t e, pre (prd s t) e -> e <> 0 /\ busy s e = true /\ ~ In e (B ++ Q);
  i_preu : forall t u e, pre (prd s t) e -> pre (prd s u) e -> t = u;
  i_pay : forall t e v, prd s t = PNext1 e v \/ prd s t = PNext2 e v \/ prd s t = PSwap e v -> pay s e = v;
  i_next : forall t e v, prd s t = PSwap e v -> nxt s e = 0;
  i_bad : forall t, prd s t <> PBad;
  i_cons : cinv s B Q }.

Lemma inv0 : forall n p, Inv (q0 n p) [] [].
Proof.
  intros n p. constructor; cbn; intros; try discriminate; try contradiction; try tauto; try constructor.
  - destruct H as [H|H]; exfalso; exact (adj_nil _ _ H).
  - destruct H as [H|H]; destruct l; discriminate.
  - intuition discriminate.
Qed.

Lemma updp_same : forall f t p, updp f t p t = p.
Proof. intros. unfold updp. rewrite Nat.eqb_refl. reflexivity. Qed.
Lemma updp_other : forall f t u p, u <> t -> updp f t p u = f u.
Proof. intros f t u p H. unfold updp. destruct (Nat.eqb_spec u t); [contradiction|reflexivity]. Qed.
Lemma upd_same : forall f a v, upd f a v a = v.
Proof. intros. unfold upd. rewrite Z.eqb_refl. reflexivity. Qed.
Lemma upd_other : forall f a v x, x <> a -> upd f a v x = f x.
Proof. intros f a v x H. unfold upd. destruct (Z.eqb_spec x a); [contradiction|reflexivity]. Qed.

(** Memory outside the queue does not matter. *)
Lemma map_pay_ext : forall (l : list Z) (f g : Z -> Z), (forall e, In e l -> f e = g e) ->
  map (fun e => (e, f e)) l = map (fun e => (e, g e)) l.
Proof. intros l f g H. apply map_ext_in. intros a Ha. rewrite (H a Ha). reflexivity. Qed.

Lemma last_in : forall (l : list Z) d, l <> [] -> In (last l d) l.
Proof.
  intros l d H. destruct (@exists_last _ l H) as (l' & a & ->). rewrite last_last. apply in_or_app. right; left; reflexivity.
Qed.
Lemma last_nz : forall l, ~ In 0 l -> last l 0 = 0 -> l = [].
Proof.
  intros l H E. destruct l as [|a l]; [reflexivity|]. exfalso. apply H. rewrite <- E. apply last_in. discriminate.
Qed.

(** Writing [next] and [ptr] of an address outside [B ++ Q]. *)
Lemma cinv_frame : forall s s' B Q, cinv s B Q -> cns s' = cns s -> qhd s' = qhd s ->
  (forall x, In x (B ++ Q) -> nxt s' x = nxt s x) -> cinv s' B Q.
Proof.
  intros s s' B Q H Ec Eh F. unfold cinv in *. rewrite Ec. destruct (cns s); rewrite ?Eh; try exact H.
  - destruct H as (B1 & B2 & EB & H1 & H2 & H3). exists B1, B2. split; [exact EB|]. split; [exact H1|]. split; [exact H2|].
    intros x y A. rewrite F; [exact (H3 x y A)|].
    destruct (adj_in _ _ _ A) as [A1 _]. rewrite EB. apply in_app_or in A1. apply in_or_app. left. apply in_or_app.
    destruct A1 as [A1|[->|[]]]; [left; exact A1|right; left; reflexivity].
  - destruct H as (B1 & B2 & EB & H1 & H2 & H3 & H4 & H5). exists B1, B2. split; [exact EB|]. split; [exact H1|]. split; [exact H2|].
    split; [|split; [exact H4|]].
    + intros x y A. rewrite F; [exact (H3 x y A)|].
      destruct (adj_in _ _ _ A) as [A1 _]. rewrite EB. apply in_app_or in A1. apply in_or_app. left. apply in_or_app.
      destruct A1 as [A1|[->|[]]]; [left; exact A1|right; left; reflexivity].
    + rewrite F; [exact H5|]. rewrite EB. apply in_or_app. left. apply in_or_app. right; left; reflexivity.
  - destruct H as [H1 H2]. split; [exact H1|]. intros x y A. rewrite F; [exact (H2 x y A)|].
    apply in_or_app. left. exact (proj1 (adj_in _ _ _ A)).
  - destruct H as (l & H1 & H2 & H3). exists l. split; [exact H1|]. split; [exact H2|].
    intros x y A. rewrite F; [exact (H3 x y A)|]. apply in_or_app. left. exact (proj1 (adj_in _ _ _ A)).
Qed.

(** Steps of a producer before the swap, on its own entry [e]. *)
Lemma inv_private : forall s s' B Q t e p',
  Inv s B Q -> (forall a b, prd s t <> PLink a b) -> e <> 0 -> ~ In e (B ++ Q) ->
  (forall u, u <> t -> ~ pre (prd s u) e) -> pre p' e ->
  prd s' = updp (prd s) t p' -> qhd s' = qhd s -> qtl s' = qtl s -> cns s' = cns s ->
  (forall x, x <> e -> nxt s' x = nxt s x) -> (forall x, x <> e -> pay s' x = pay s x) ->
  busy s' e = true -> (forall x, busy s x = true -> busy s' x = true) ->
  pubs (tr s') = pubs (tr s) -> dels (tr s') = dels (tr s) ->
  (forall a v, p' = PNext1 a v \/ p' = PNext2 a v \/ p' = PSwap a v -> pay s' e = v) ->
  (forall a v, p' = PSwap a v -> nxt s' e = 0) -> Inv s' B Q.
Proof.
  intros s s' B Q t e p' I NL NZ NI NU P' Ep Eh Et Ec Fn Fp Be Bm Epu Ede Hpay Hnx.
  assert (Fin : forall x, In x (B ++ Q) -> nxt s' x = nxt s x).
  { intros x Hx. apply Fn. intros ->. exact (NI Hx). }
  assert (InB : forall x y, adj B x y \/ adj Q x y -> In x (B ++ Q)).
  { intros x y [A|A]; apply in_or_app; [left|right]; exact (proj1 (adj_in _ _ _ A)). }
  assert (PL : forall u a b, prd s' u = PLink a b -> prd s u = PLink a b).
  { intros u a b. rewrite Ep. destruct (Nat.eq_dec u t) as [->|N].
    - rewrite updp_same. intros ->. destruct P'.
    - rewrite updp_other by exact N. trivial. }
  assert (PL' : forall u a b, prd s u = PLink a b -> prd s' u = PLink a b).
  { intros u a b E. rewrite Ep. destruct (Nat.eq_dec u t) as [->|N]; [exfalso; exact (NL _ _ E)|].
    rewrite updp_other by exact N. exact E. }
  assert (PR : forall u a, pre (prd s' u) a -> (u = t /\ a = e) \/ (u <> t /\ a <> e /\ pre (prd s u) a)).
  { intros u a. rewrite Ep. destruct (Nat.eq_dec u t) as [->|N].
    - rewrite updp_same. intros H. left. split; [reflexivity|]. destruct p'; cbn in *; try contradiction; congruence.
    - rewrite updp_other by exact N. intros H. right. split; [exact N|]. split; [|exact H]. intros ->. exact (NU u N H). }
  destruct I. constructor.
  - rewrite Epu, Ede, i_log0. f_equal. apply map_pay_ext. intros x Hx. symmetry. apply Fp. intros ->. exact (NI Hx).
  - exact i_nd0.
  - exact i_nz0.
  - intros x Hx. apply Bm, i_busy0, Hx.
  - rewrite Et. exact i_tl0.
  - intros x y A. rewrite (Fin x (InB x y A)). destruct (i_link0 x y A) as [L|[L (u & Hu)]]; [left; exact L|right].
    split; [exact L|]. exists u. exact (PL' _ _ _ Hu).
  - intros l x A. rewrite Fin; [exact (i_end0 l x A)|]. apply in_or_app.
    destruct A as [->| ->]; [left|right]; apply in_or_app; right; left; reflexivity.
  - rewrite Eh. exact i_empty0.
  - intros q l E. rewrite Eh, Ec. destruct (i_head0 q l E) as [H|[H [(u & Hu)|H1]]]; [left; exact H| |]; right; (split; [exact H|]).
    + left. exists u. exact (PL' _ _ _ Hu).
    + right. exact H1.
  - intros u a Hu. rewrite Eh, Ec. exact (i_pl1 u a (PL _ _ _ Hu)).
  - intros u a b Hu Nb. destruct (i_plp0 u a b (PL _ _ _ Hu) Nb) as [H1 H2]. split; [|exact H2].
    rewrite (Fin b (InB b a H2)). exact H1.
  - intros u w a b c Hu Hw. exact (i_plu0 u w a b c (PL _ _ _ Hu) (PL _ _ _ Hw)).
  - intros u a Hu. destruct (PR u a Hu) as [[-> ->]|(N & Na & H)].
    + split; [exact NZ|]. split; [exact Be|exact NI].
    + destruct (i_pre0 u a H) as (H1 & H2 & H3). split; [exact H1|]. split; [exact (Bm a H2)|exact H3].
  - intros u w a Hu Hw. destruct (PR u a Hu) as [[-> ->]|(N & Na & H)]; destruct (PR w _ Hw) as [[-> E]|(N' & Na' & H')];
      try reflexivity; try congruence. exact (i_preu0 u w a H H').
  - intros u a v Hu.
    assert (Pu : pre (prd s' u) a) by (destruct Hu as [-> | [-> | ->]]; reflexivity).
    destruct (PR u a Pu) as [[-> ->]|(N & Na & H)].
    + apply (Hpay e). rewrite Ep, updp_same in Hu. exact Hu.
    + rewrite Fp by exact Na. rewrite Ep, updp_other in Hu by exact N. exact (i_pay0 u a v Hu).
  - intros u a v Hu. assert (Pu : pre (prd s' u) a) by (rewrite Hu; reflexivity).
    destruct (PR u a Pu) as [[-> ->]|(N & Na & H)].
    + apply (Hnx e v). rewrite Ep, updp_same in Hu. exact Hu.
    + rewrite Fn by exact Na. rewrite Ep, updp_other in Hu by exact N. exact (i_next0 u a v Hu).
  - intros u. rewrite Ep. destruct (Nat.eq_dec u t) as [->|N].
    + rewrite updp_same. intros ->. destruct P'.
    + rewrite updp_other by exact N. exact (i_bad0 u).
  - exact (cinv_frame s s' B Q i_cons0 Ec Eh Fin).
Qed.

Lemma inv_start : forall s B Q t e v s', Inv s B Q -> start s t e v = Some s' -> Inv s' B Q.
Proof.
  intros s B Q t e v s' I. unfold start. destruct (prd s t) eqn:Et; try discriminate.
  destruct (Z.eqb_spec e 0) as [E|NZ]; cbn [orb]; [discriminate|]. destruct (busy s e) eqn:Eb; [discriminate|].
  intros H. injection H as <-.
  apply (inv_private s _ B Q t e (PPay e v) I); cbn; try reflexivity; try (intros; reflexivity).
  - intros a b. rewrite Et. discriminate.
  - exact NZ.
  - intros H. rewrite (i_busy _ _ _ I e H) in Eb. discriminate.
  - intros u N H. destruct (i_pre _ _ _ I u e H) as (_ & H2 & _). congruence.
  - unfold updb. rewrite Z.eqb_refl. reflexivity.
  - intros x Hx. unfold updb. rewrite Hx. destruct (x =? e); reflexivity.
  - rewrite pubs_app. cbn. apply app_nil_r.
  - rewrite dels_app. cbn. apply app_nil_r.
  - intros a w [H|[H|H]]; discriminate.
  - discriminate.
Qed.

(** The first three accesses of a producer. *)
Lemma inv_go_pre : forall s B Q t s', Inv s B Q -> go s t = Some s' ->
  (forall e v, prd s t <> PSwap e v) -> (forall e v, prd s t <> PLink e v) -> Inv s' B Q.
Proof.
  intros s B Q t s' I. unfold go. intros H NS NL.
  assert (G : forall e, pre (prd s t) e -> e <> 0 /\ busy s e = true /\ ~ In e (B ++ Q) /\
    (forall u, u <> t -> ~ pre (prd s u) e)).
  { intros e He. destruct (i_pre _ _ _ I t e He) as (H1 & H2 & H3). split; [exact H1|]. split; [exact H2|]. split; [exact H3|].
    intros u N Hu. apply N. exact (i_preu _ _ _ I u t e Hu He). }
  destruct (prd s t) as [|e v|e v|e v|e v|e v|] eqn:Et; try discriminate.
  - injection H as <-. destruct (G e eq_refl) as (H1 & H2 & H3 & H4).
    apply (inv_private s _ B Q t e (PNext1 e v) I); cbn; try assumption; try reflexivity; try (intros; reflexivity).
    + rewrite Et. discriminate.
    + intros x Hx. apply upd_other, Hx.
    + tauto.
    + intros a w [X|[X|X]]; try discriminate. injection X as -> ->. apply upd_same.
    + discriminate.
  - injection H as <-. destruct (G e eq_refl) as (H1 & H2 & H3 & H4).
    apply (inv_private s _ B Q t e (PNext2 e v) I); cbn; try assumption; try reflexivity; try (intros; reflexivity).
    + rewrite Et. discriminate.
    + intros x Hx. apply upd_other, Hx.
    + tauto.
    + intros a w [X|[X|X]]; try discriminate. injection X as -> ->. apply (i_pay _ _ _ I t). left. exact Et.
    + discriminate.
  - injection H as <-. destruct (G e eq_refl) as (H1 & H2 & H3 & H4).
    apply (inv_private s _ B Q t e (PSwap e v) I); cbn; try assumption; try reflexivity; try (intros; reflexivity).
    + rewrite Et. discriminate.
    + intros x Hx. apply upd_other, Hx.
    + tauto.
    + intros a w [X|[X|X]]; try discriminate. injection X as -> ->. apply (i_pay _ _ _ I t). right; left. exact Et.
    + intros. apply upd_same.
  - exfalso. exact (NS e v eq_refl).
  - exfalso. exact (NL e v eq_refl).
Qed.

Lemma inv_scribble : forall s B Q a n v, Inv s B Q -> busy s a = false -> Inv (set_pay (set_nxt s a n) a v) B Q.
Proof.
  intros s B Q a n v I Hb.
  assert (NI : ~ In a (B ++ Q)) by (intros H; rewrite (i_busy _ _ _ I a H) in Hb; discriminate).
  assert (Fin : forall x, In x (B ++ Q) -> upd (nxt s) a n x = nxt s x).
  { intros x Hx. apply upd_other. intros ->. exact (NI Hx). }
  assert (Fpre : forall t e, pre (prd s t) e -> e <> a).
  { intros t e H ->. destruct (i_pre _ _ _ I t a H) as (_ & H2 & _). congruence. }
  assert (InB : forall x y, adj B x y \/ adj Q x y -> In x (B ++ Q)).
  { intros x y [A|A]; apply in_or_app; [left|right]; exact (proj1 (adj_in _ _ _ A)). }
  pose proof (i_cons _ _ _ I) as IC.
  destruct I. constructor; cbn; try assumption.
  - rewrite i_log0. f_equal. apply map_pay_ext. intros x Hx. symmetry. apply upd_other. intros ->. exact (NI Hx).
  - intros x y A. rewrite (Fin x (InB x y A)). exact (i_link0 x y A).
  - intros l x A. rewrite Fin; [exact (i_end0 l x A)|]. apply in_or_app.
    destruct A as [->| ->]; [left|right]; apply in_or_app; right; left; reflexivity.
  - intros u x b Hu Nb. destruct (i_plp0 u x b Hu Nb) as [H1 H2]. split; [|exact H2]. rewrite (Fin b (InB b x H2)). exact H1.
  - intros u e w Hu. rewrite upd_other; [exact (i_pay0 u e w Hu)|]. apply (Fpre u). destruct Hu as [-> | [-> | ->]]; reflexivity.
  - intros u e w Hu. rewrite upd_other; [exact (i_next0 u e w Hu)|]. apply (Fpre u). rewrite Hu. reflexivity.
  - exact (cinv_frame s (set_pay (set_nxt s a n) a v) B Q IC eq_refl eq_refl Fin).
Qed.

(** The tail swap publishes the entry. *)
Lemma inv_swap : forall s B Q t e v, Inv s B Q -> prd s t = PSwap e v ->
  Inv (log (set_prod (set_tl s e) t (PLink e (qtl s))) (EPub t e v)) B (Q ++ [e]).
Proof.
  intros s B Q t e v I Et.
  destruct (i_pre _ _ _ I t e) as (NZ & Be & NI); [rewrite Et; reflexivity|].
  assert (Pv : pay s e = v) by (apply (i_pay _ _ _ I t); right; right; exact Et).
  assert (Nx : nxt s e = 0) by (exact (i_next _ _ _ I t e v Et)).
  assert (NU : forall u a, u <> t -> pre (prd s u) a -> a <> e).
  { intros u a N H ->. apply N. apply (i_preu _ _ _ I u t e H). rewrite Et. reflexivity. }
  pose proof (i_cons _ _ _ I) as IC.
  assert (NoPL : forall u p, prd s u <> PLink e p).
  { intros u p Hu. apply NI. destruct (Z.eq_dec p 0) as [->|Np].
    - destruct (i_pl0 _ _ _ I u e Hu) as (_ & (l & ->) & _). apply in_or_app. right; left; reflexivity.
    - destruct (i_plp _ _ _ I u e p Hu Np) as [_ [A|A]]; apply in_or_app; [left|right]; exact (proj2 (adj_in _ _ _ A)). }
  assert (QL : forall x, In x (B ++ Q ++ [e]) <-> In x (B ++ Q) \/ x = e).
  { intros x. rewrite !in_app_iff. cbn. split; [intros [H|[H|[->|[]]]]|intros [[H|H]| ->]]; tauto. }
  destruct I. constructor; cbn.
  - rewrite pubs_app, dels_app, i_log0. cbn [pubs dels]. rewrite app_nil_r, (app_assoc B Q [e]), (map_app _ (B ++ Q)).
    cbn [map]. rewrite Pv, <- app_assoc. reflexivity.
  - rewrite app_assoc. apply nodup_snoc; assumption.
  - rewrite QL. intros [H|H]; [exact (i_nz0 H)|congruence].
  - intros x Hx. apply QL in Hx. destruct Hx as [Hx| ->]; [exact (i_busy0 x Hx)|exact Be].
  - rewrite last_last. reflexivity.
  - intros x y A.
    assert (A' : (adj B x y \/ adj Q x y) \/ (y = e /\ exists l', Q = l' ++ [x])).
    { destruct A as [A|A]; [left; left; exact A|]. apply adj_snoc in A. destruct A as [A|A]; [left; right; exact A|right; exact A]. }
    destruct A' as [A'|[-> (l' & EQ)]].
    + destruct (i_link0 x y A') as [L|[L (u & Hu)]]; [left; exact L|right; split; [exact L|]]. exists u.
      rewrite updp_other; [exact Hu|]. intros ->. congruence.
    + right. split; [apply (i_end0 l' x); right; exact EQ|]. exists t. rewrite updp_same. rewrite i_tl0, EQ, last_last. reflexivity.
  - intros l x [E|E]; [exact (i_end0 l x (or_introl E))|]. apply snoc_eq in E. destruct E as [_ <-]. exact Nx.
  - intros E. destruct Q; discriminate.
  - intros q l E. destruct Q as [|q' Q'].
    + cbn in E. injection E as <- <-. right. split; [apply i_empty0; reflexivity|]. left. exists t. rewrite updp_same, i_tl0. reflexivity.
    + cbn in E. injection E as <- <-. destruct (i_head0 q' Q' eq_refl) as [H|[H [(u & Hu)|H1]]]; [left; exact H| |].
      * right. split; [exact H|]. left. exists u. rewrite updp_other; [exact Hu|]. intros ->. congruence.
      * right. split; [exact H|]. right. exact H1.
  - intros u a. destruct (Nat.eq_dec u t) as [->|N].
    + rewrite updp_same. intros E. injection E as -> E. rewrite i_tl0 in E.
      assert (EQ : Q = []) by (apply last_nz; [intros H; apply i_nz0, in_or_app; right; exact H|exact E]). subst Q.
      split; [apply i_empty0; reflexivity|]. split; [exists []; reflexivity|].
      intros h Hh. unfold cinv in IC. rewrite Hh in IC. destruct IC as (_ & _ & l & EE). discriminate.
    + rewrite updp_other by exact N. intros E. destruct (i_pl1 u a E) as (H1 & (l & ->) & H3).
      split; [exact H1|]. split; [exists (l ++ [e]); reflexivity|exact H3].
  - intros u a p. destruct (Nat.eq_dec u t) as [->|N].
    + rewrite updp_same. intros E Np. injection E as <- <-. destruct (@exists_last _ Q) as (l' & x & EQ).
      { intros ->. apply Np. rewrite i_tl0. reflexivity. }
      subst Q. rewrite i_tl0, last_last. split; [apply (i_end0 l' x); right; reflexivity|]. right. apply adj_last.
    + rewrite updp_other by exact N. intros E Np. destruct (i_plp0 u a p E Np) as [H1 [A|A]]; (split; [exact H1|]); [left|right]; [exact A|].
      apply adj_app_l, A.
  - intros u w a p p'. destruct (Nat.eq_dec u t) as [->|N]; [rewrite updp_same|rewrite updp_other by exact N];
      (destruct (Nat.eq_dec w t) as [->|N']; [rewrite updp_same|rewrite updp_other by exact N']); intros E1 E2.
    + reflexivity.
    + injection E1 as <- _. exfalso. exact (NoPL w p' E2).
    + injection E2 as <- _. exfalso. exact (NoPL u p E1).
    + exact (i_plu0 u w a p p' E1 E2).
  - intros u a. destruct (Nat.eq_dec u t) as [->|N]; [rewrite updp_same; intros []|rewrite updp_other by exact N]. intros H.
    destruct (i_pre0 u a H) as (H1 & H2 & H3). split; [exact H1|]. split; [exact H2|]. rewrite QL. intros [X|X]; [exact (H3 X)|].
    exact (NU u a N H X).
  - intros u w a. destruct (Nat.eq_dec u t) as [->|N]; [rewrite updp_same; intros []|rewrite updp_other by exact N].
    destruct (Nat.eq_dec w t) as [->|N']; [rewrite updp_same; intros _ []|rewrite updp_other by exact N']. exact (i_preu0 u w a).
  - intros u a w. destruct (Nat.eq_dec u t) as [->|N]; [rewrite updp_same; intros [X|[X|X]]; discriminate|rewrite updp_other by exact N].
    exact (i_pay0 u a w).
  - intros u a w. destruct (Nat.eq_dec u t) as [->|N]; [rewrite updp_same; discriminate|rewrite updp_other by exact N]. exact (i_next0 u a w).
  - intros u. destruct (Nat.eq_dec u t) as [->|N]; [rewrite updp_same; discriminate|rewrite updp_other by exact N]. exact (i_bad0 u).
  - unfold cinv in *. cbn. destruct (cns s); try exact IC.
    destruct IC as (H1 & H2 & l & ->). split; [exact H1|]. split; [exact H2|]. exists (l ++ [e]). reflexivity.
Qed.

(** First entry of an epoch: the head store. *)
Lemma inv_link0 : forall s B Q t e, Inv s B Q -> prd s t = PLink e 0 ->
  Inv (log (set_prod (set_hd s e) t PIdle) (ERet t)) B Q.
Proof.
  intros s B Q t e I Et. destruct (i_pl0 _ _ _ I t e Et) as (H0 & (l & EQ) & NS).
  pose proof (i_cons _ _ _ I) as IC. pose proof (i_nz _ _ _ I) as NZ.
  assert (Ne : e <> 0) by (intros ->; apply NZ, in_or_app; right; rewrite EQ; left; reflexivity).
  assert (PL : forall u a b, updp (prd s) t PIdle u = PLink a b -> prd s u = PLink a b /\ u <> t).
  { intros u a b. destruct (Nat.eq_dec u t) as [->|N]; [rewrite updp_same; discriminate|rewrite updp_other by exact N; auto]. }
  assert (PR : forall u a, pre (updp (prd s) t PIdle u) a -> pre (prd s u) a).
  { intros u a. destruct (Nat.eq_dec u t) as [->|N]; [rewrite updp_same; intros []|rewrite updp_other by exact N; auto]. }
  destruct I. constructor; cbn; try assumption.
  - rewrite pubs_app, dels_app. cbn. rewrite !app_nil_r. exact i_log0.
  - intros x y A. destruct (i_link0 x y A) as [L|[L (u & Hu)]]; [left; exact L|right; split; [exact L|]]. exists u.
    rewrite updp_other; [exact Hu|]. intros ->. rewrite Et in Hu. injection Hu as <- <-.
    apply NZ. destruct A as [A|A]; apply in_or_app; [left|right]; exact (proj1 (adj_in _ _ _ A)).
  - intros E. rewrite E in EQ. discriminate.
  - intros q l' E. left. congruence.
  - intros u a H. apply PL in H. destruct H as [H N]. exfalso. destruct (i_pl1 u a H) as (_ & (l' & E') & _).
    apply N. rewrite EQ in E'. injection E' as <- _. exact (i_plu0 u t e 0 0 H Et).
  - intros u a p H Np. apply PL in H. destruct H as [H _]. exact (i_plp0 u a p H Np).
  - intros u w a p p' H1 H2. apply PL in H1, H2. exact (i_plu0 u w a p p' (proj1 H1) (proj1 H2)).
  - intros u a H. exact (i_pre0 u a (PR u a H)).
  - intros u w a H1 H2. exact (i_preu0 u w a (PR u a H1) (PR w a H2)).
  - intros u a v. destruct (Nat.eq_dec u t) as [->|N]; [rewrite updp_same; intros [X|[X|X]]; discriminate|rewrite updp_other by exact N].
    exact (i_pay0 u a v).
  - intros u a v. destruct (Nat.eq_dec u t) as [->|N]; [rewrite updp_same; discriminate|rewrite updp_other by exact N]. exact (i_next0 u a v).
  - intros u. destruct (Nat.eq_dec u t) as [->|N]; [rewrite updp_same; discriminate|rewrite updp_other by exact N]. exact (i_bad0 u).
  - unfold cinv in *. cbn. destruct (cns s) eqn:Ecn; try exact IC.
    + destruct IC as (_ & H1 & H2). congruence.
    + exfalso. exact (NS _ eq_refl).
Qed.

Lemma adj_fun2 : forall B Q x y z, NoDup (B ++ Q) -> adj B x y \/ adj Q x y -> adj B x z \/ adj Q x z -> y = z.
Proof.
  intros B Q x y z ND [A|A] [C|C].
  - exact (adj_fun B x y z (nodup_app_l _ _ ND) A C).
  - exfalso. exact (nodup_app_x _ _ x ND (proj1 (adj_in _ _ _ A)) (proj1 (adj_in _ _ _ C))).
  - exfalso. exact (nodup_app_x _ _ x ND (proj1 (adj_in _ _ _ C)) (proj1 (adj_in _ _ _ A))).
  - exact (adj_fun Q x y z (nodup_app_r _ _ ND) A C).
Qed.

Lemma adj_end2 : forall B Q x y l, NoDup (B ++ Q) -> adj B x y \/ adj Q x y -> B = l ++ [x] \/ Q = l ++ [x] -> False.
Proof.
  intros B Q x y l ND [A|A] [C|C].
  - exact (adj_not_last B x y l (nodup_app_l _ _ ND) A C).
  - apply (nodup_app_x _ _ x ND (proj1 (adj_in _ _ _ A))). rewrite C. apply in_or_app. right; left; reflexivity.
  - apply (fun h => nodup_app_x _ _ x ND h (proj1 (adj_in _ _ _ A))). rewrite C. apply in_or_app. right; left; reflexivity.
  - exact (adj_not_last Q x y l (nodup_app_r _ _ ND) A C).
Qed.

Lemma adj_in2 : forall B Q x y, adj B x y \/ adj Q x y -> In x (B ++ Q) /\ In y (B ++ Q).
Proof. intros B Q x y [A|A]; apply adj_in in A; destruct A; split; apply in_or_app; tauto. Qed.

Lemma inv_linkp : forall s B Q t e p, Inv s B Q -> prd s t = PLink e p -> p <> 0 ->
  Inv (log (set_prod (set_nxt s p e) t PIdle) (ERet t)) B Q.
Proof.
  intros s B Q t e p I Et Np. destruct (i_plp _ _ _ I t e p Et Np) as [N0 AD].
  pose proof (i_cons _ _ _ I) as IC. pose proof (i_nz _ _ _ I) as NZ. pose proof (i_nd _ _ _ I) as ND.
  assert (Ne : e <> 0) by (intros ->; apply NZ; exact (proj2 (adj_in2 _ _ _ _ AD))).
  assert (PL : forall u a b, updp (prd s) t PIdle u = PLink a b -> prd s u = PLink a b /\ u <> t).
  { intros u a b. destruct (Nat.eq_dec u t) as [->|N]; [rewrite updp_same; discriminate|rewrite updp_other by exact N; auto]. }
  assert (PR : forall u a, pre (updp (prd s) t PIdle u) a -> pre (prd s u) a).
  { intros u a. destruct (Nat.eq_dec u t) as [->|N]; [rewrite updp_same; intros []|rewrite updp_other by exact N; auto]. }
  assert (K : forall x y, nxt s x = y -> y <> 0 -> upd (nxt s) p e x = y).
  { intros x y H Hy. rewrite upd_other; [exact H|]. intros ->. congruence. }
  assert (KB : forall l, (forall z, In z l -> In z (B ++ Q)) -> (forall x y, adj l x y -> nxt s x = y) ->
    forall x y, adj l x y -> upd (nxt s) p e x = y).
  { intros l HB HL x y A. apply K; [exact (HL x y A)|]. intros ->. apply NZ, HB. exact (proj2 (adj_in _ _ _ A)). }
  assert (HB0 : forall z, In z B -> In z (B ++ Q)) by (intros z Hz; apply in_or_app; left; exact Hz).
  assert (HB1 : forall B1 cur B2, B = B1 ++ cur :: B2 -> forall z, In z (B1 ++ [cur]) -> In z (B ++ Q)).
  { intros B1 cur B2 E z Hz. apply HB0. rewrite E. apply in_app_or in Hz. apply in_or_app.
    destruct Hz as [Hz|[->|[]]]; [left; exact Hz|right; left; reflexivity]. }
  destruct I. constructor; cbn; try assumption.
  - rewrite pubs_app, dels_app. cbn. rewrite !app_nil_r. exact i_log0.
  - intros x y A. destruct (Z.eq_dec x p) as [->|Nx].
    + left. rewrite upd_same. exact (adj_fun2 B Q p e y ND AD A).
    + rewrite upd_other by exact Nx. destruct (i_link0 x y A) as [L|[L (u & Hu)]]; [left; exact L|right; split; [exact L|]].
      exists u. rewrite updp_other; [exact Hu|]. intros ->. rewrite Et in Hu. congruence.
  - intros l x A. rewrite upd_other; [exact (i_end0 l x A)|]. intros ->. exact (adj_end2 B Q p e l ND AD A).
  - intros q l E. destruct (i_head0 q l E) as [H|[H [(u & Hu)|H1]]]; [left; exact H| |]; right; (split; [exact H|]).
    + left. exists u. rewrite updp_other; [exact Hu|]. intros ->. rewrite Et in Hu. congruence.
    + right. exact H1.
  - intros u a H. apply PL in H. exact (i_pl1 u a (proj1 H)).
  - intros u a b H Nb. apply PL in H. destruct H as [H N]. destruct (i_plp0 u a b H Nb) as [H1 H2]. split; [|exact H2].
    rewrite upd_other; [exact H1|]. intros ->. apply N. assert (a = e) by exact (adj_fun2 B Q p a e ND H2 AD). subst a.
    exact (i_plu0 u t e p p H Et).
  - intros u w a b b' H1 H2. apply PL in H1, H2. exact (i_plu0 u w a b b' (proj1 H1) (proj1 H2)).
  - intros u a H. exact (i_pre0 u a (PR u a H)).
  - intros u w a H1 H2. exact (i_preu0 u w a (PR u a H1) (PR w a H2)).
  - intros u a v. destruct (Nat.eq_dec u t) as [->|N]; [rewrite updp_same; intros [X|[X|X]]; discriminate|rewrite updp_other by exact N].
    exact (i_pay0 u a v).
  - intros u a v. destruct (Nat.eq_dec u t) as [->|N]; [rewrite updp_same; discriminate|rewrite updp_other by exact N]. intros H.
    rewrite upd_other; [exact (i_next0 u a v H)|]. intros ->. destruct (i_pre0 u p) as (_ & _ & X); [rewrite H; reflexivity|].
    apply X. exact (proj1 (adj_in2 _ _ _ _ AD)).
  - intros u. destruct (Nat.eq_dec u t) as [->|N]; [rewrite updp_same; discriminate|rewrite updp_other by exact N]. exact (i_bad0 u).
  - unfold cinv in *. cbn. destruct (cns s) as [| |h|h|h t0 cur|h t0 cur|e0|e0 n|] eqn:Ecn; try exact IC.
    + destruct IC as (B1 & B2 & EB & H1 & H2 & H3). exists B1, B2. split; [exact EB|]. split; [exact H1|]. split; [exact H2|].
      exact (KB _ (HB1 _ _ _ EB) H3).
    + destruct IC as (B1 & B2 & EB & H1 & H2 & H3 & H4 & H5). exists B1, B2. split; [exact EB|]. split; [exact H1|]. split; [exact H2|].
      split; [exact (KB _ (HB1 _ _ _ EB) H3)|]. split; [exact H4|]. unfold upd. destruct (cur =? p); assumption.
    + destruct IC as [H1 H2]. split; [exact H1|]. exact (KB _ HB0 H2).
    + destruct IC as (l & H1 & H2 & H3). exists l. split; [exact H1|]. split; [exact H2|]. exact (KB _ HB0 H3).
Qed.

Lemma inv_go : forall s B Q t s', Inv s B Q -> go s t = Some s' -> exists Q', Inv s' B Q' /\ (Q' = Q \/ exists e, Q' = Q ++ [e]).
Proof.
  intros s B Q t s' I H. destruct (prd s t) as [|e v|e v|e v|e v|e p|] eqn:Et.
  1-4,7: exists Q; (split; [apply (inv_go_pre s B Q t s' I H); rewrite Et; discriminate|left; reflexivity]).
  - unfold go in H. rewrite Et in H. injection H as <-. exists (Q ++ [e]). split; [exact (inv_swap s B Q t e v I Et)|right; exists e; reflexivity].
  - exists Q. split; [|left; reflexivity]. unfold go in H. rewrite Et in H. destruct (Z.eqb_spec p 0) as [E0|Np].
    + subst p. injection H as <-. exact (inv_link0 s B Q t e I Et).
    + destruct (i_plp _ _ _ I t e p Et Np) as [_ AD].
      rewrite (i_busy _ _ _ I p (proj1 (adj_in2 _ _ _ _ AD))) in H. injection H as <-. exact (inv_linkp s B Q t e p I Et Np).
Qed.

(** ** Consumer *)
(** Changing only the program counter of the consumer. *)
Lemma inv_cons : forall s B Q c, Inv s B Q -> (forall h, cns s <> CSwap h) -> (forall h, c <> CSwap h) ->
  cinv (set_cons s c) B Q -> Inv (set_cons s c) B Q.
Proof.
  intros s B Q c I N1 N2 IC. destruct I. constructor; cbn; try assumption.
  - intros q l E. destruct (i_head0 q l E) as [H|[H [H1|H1]]]; [left; exact H|right; split; [exact H|left; exact H1]|].
    exfalso. exact (N1 _ H1).
  - intros t e H. destruct (i_pl1 t e H) as (H1 & H2 & _). split; [exact H1|]. split; [exact H2|exact N2].
Qed.

Definition nB (c : cpc) (B Q : list Z) : list Z := match c with CSwap _ => Q | CDel _ _ => List.tl B | _ => B end.
Definition nQ (c : cpc) (Q : list Z) : list Z := match c with CSwap _ => [] | _ => Q end.

Lemma inv_consume : forall s B Q s', Inv s B Q -> consume s = Some s' -> Inv s' (nB (cns s) B Q) (nQ (cns s) Q).
Proof.
  intros s B Q s' I H. unfold consume in H. pose proof (i_cons _ _ _ I) as IC. unfold cinv in IC.
  destruct (cns s) as [| |h|h|h t cur|h t cur|e|e n|] eqn:Ec; cbn [nB nQ].
  - (* empty? *) injection H as <-. subst B.  apply inv_cons; [exact I|rewrite Ec; discriminate|destruct (qhd s =? 0); discriminate|].
    unfold cinv. cbn. destruct (qhd s =? 0); reflexivity.
  - (* load head *) injection H as <-. subst B.  apply inv_cons; [exact I|rewrite Ec; discriminate|destruct (qhd s =? 0); discriminate|].
    unfold cinv. cbn. destruct (Z.eqb_spec (qhd s) 0) as [E|E].
    + split; [reflexivity|]. intros x y A. exfalso. exact (adj_nil _ _ A).
    + split; [reflexivity|]. split; [reflexivity|exact E].
  - (* clear head *) injection H as <-. destruct IC as (-> & Eh & Nh). 
    assert (EQ : exists l, Q = h :: l).
    { destruct Q as [|q l]; [rewrite (i_empty _ _ _ I eq_refl) in Eh; congruence|].
      destruct (i_head _ _ _ I q l eq_refl) as [E|[E _]]; [|congruence]. exists l. congruence. }
    assert (NP0 : forall t e, prd s t <> PLink e 0).
    { intros t e Ht. destruct (i_pl0 _ _ _ I t e Ht) as (E & _). congruence. }
    destruct I. constructor; cbn; try assumption; try reflexivity.
    + intros q l E. right. split; [reflexivity|]. right. destruct EQ as (l' & EQ). congruence.
    + intros t e Ht. exfalso. exact (NP0 t e Ht).
    + unfold cinv. cbn. split; [reflexivity|]. split; [reflexivity|exact EQ].
  - (* swap tail *) destruct IC as (-> & Eh & l & EQ). destruct (Z.eqb_spec (qtl s) 0) as [E|E].
    { exfalso. rewrite (i_tl _ _ _ I) in E. apply last_nz in E; [rewrite E in EQ; discriminate|exact (i_nz _ _ _ I)]. }
    injection H as <-. 
    assert (NP0 : forall t e, prd s t <> PLink e 0).
    { intros t e Ht. destruct (i_pl0 _ _ _ I t e Ht) as (_ & _ & X). exact (X h Ec). }
    cbn [app] in *. destruct I. cbn [app] in *. constructor; cbn; rewrite ?app_nil_r; try assumption; try reflexivity.
    + intros x y [A|A]; [apply i_link0; right; exact A|exfalso; exact (adj_nil _ _ A)].
    + intros l' x [A|A]; [apply (i_end0 l'); right; exact A|destruct l'; discriminate].
    + intros _. exact Eh.
    + intros q l' A. discriminate.
    + intros t e Ht. exfalso. exact (NP0 t e Ht).
    + intros t e p Ht Np. destruct (i_plp0 t e p Ht Np) as [H1 [A|A]]; [exfalso; exact (adj_nil _ _ A)|]. split; [exact H1|left; exact A].
    + unfold cinv. cbn. exists [], l. split; [exact EQ|]. split; [exists l; exact EQ|]. split; [symmetry; exact i_tl0|].
      intros x y A. exfalso. cbn in A. apply adj_cons in A. destruct A as [(_ & l' & X)|A]; [discriminate|exact (adj_nil _ _ A)].
  - (* wait *) destruct IC as (B1 & B2 & EB & HH & HT & HL).
    assert (IB : In cur (B ++ Q)) by (rewrite EB; apply in_or_app; left; apply in_or_app; right; left; reflexivity).
    rewrite (i_busy _ _ _ I cur IB) in H. cbn [negb] in H.
    destruct (Z.eqb_spec cur t) as [E|E].
    + rewrite <- E in HT. assert (E2 : B2 = []).
      { destruct B2 as [|b B2]; [reflexivity|]. exfalso. destruct (@exists_last _ (b :: B2)) as (m & z & Em); [discriminate|].
        rewrite EB, Em in HT.
        assert (Z1 : last (B1 ++ cur :: m ++ [z]) 0 = z) by (change (cur :: m ++ [z]) with ((cur :: m) ++ [z]); rewrite app_assoc; apply last_last).
        assert (Z2 : cur = z) by (rewrite <- Z1; symmetry; exact HT). subst z.
        assert (ND := nodup_app_r _ _ (eq_ind _ (fun x => NoDup x) (nodup_app_l _ _ (i_nd _ _ _ I)) _ EB)).
        inversion ND as [|? ? X _]; subst. apply X. rewrite Em. apply in_or_app. right; left; reflexivity. }
      subst B2. rewrite (i_end _ _ _ I B1 cur (or_introl EB)) in H. cbn in H. injection H as <-. 
      apply inv_cons; [exact I|rewrite Ec; discriminate|discriminate|]. unfold cinv. cbn. split.
      * destruct HH as (l & ->). reflexivity.
      * rewrite EB. exact HL.
    + injection H as <-.  destruct (Z.eqb_spec (nxt s cur) 0) as [E0|E0].
      * apply inv_cons; [exact I|rewrite Ec; discriminate|discriminate|]. unfold cinv. cbn. exists B1, B2. tauto.
      * apply inv_cons; [exact I|rewrite Ec; discriminate|discriminate|]. unfold cinv. cbn. exists B1, B2. tauto.
  - (* advance *) destruct IC as (B1 & B2 & EB & HH & HT & HL & Nt & Nn).
    assert (IB : In cur (B ++ Q)) by (rewrite EB; apply in_or_app; left; apply in_or_app; right; left; reflexivity).
    rewrite (i_busy _ _ _ I cur IB) in H. cbn [negb] in H. injection H as <-. 
    destruct B2 as [|b B2].
    { exfalso. apply Nn. exact (i_end _ _ _ I B1 cur (or_introl EB)). }
    assert (AD : adj B cur b) by (exists B1, B2; exact EB).
    destruct (i_link _ _ _ I cur b (or_introl AD)) as [L|[L _]]; [|congruence].
    apply inv_cons; [exact I|rewrite Ec; discriminate|discriminate|]. unfold cinv. cbn. rewrite L.
    exists (B1 ++ [cur]), B2. split; [rewrite <- app_assoc; exact EB|]. split; [exact HH|]. split; [exact HT|].
    intros x y A. apply adj_snoc in A. destruct A as [A|[-> (l' & X)]]; [exact (HL x y A)|].
    apply snoc_eq in X. destruct X as [_ <-]. exact L.
  - (* walk *) destruct IC as [He HL]. destruct (Z.eqb_spec e 0) as [E|E].
    + injection H as <-. assert (B = []).
      { destruct B as [|b B']; [reflexivity|]. exfalso. cbn in He. apply (i_nz _ _ _ I). left. congruence. }
      subst B.  apply inv_cons; [exact I|rewrite Ec; discriminate|discriminate|]. unfold cinv. cbn. reflexivity.
    + destruct B as [|b B']; [cbn in He; congruence|]. cbn in He. subst b.
      rewrite (i_busy _ _ _ I e (or_introl eq_refl)) in H. cbn [negb] in H. injection H as <-. 
      apply inv_cons; [exact I|rewrite Ec; discriminate|discriminate|]. unfold cinv. cbn. exists B'. split; [reflexivity|].
      split; [|exact HL]. destruct B' as [|b B']; cbn.
      * apply (i_end _ _ _ I [] e). left. reflexivity.
      * apply HL. exists [], B'. reflexivity.
  - (* deliver *) destruct IC as (l & EB & En & HL). subst B. cbn [List.tl].
    assert (IB : In e ((e :: l) ++ Q)) by (left; reflexivity).
    rewrite (i_busy _ _ _ I e IB) in H. cbn [negb] in H. injection H as <-. 
    pose proof (i_nd _ _ _ I) as ND. cbn in ND. inversion ND as [|? ? NI ND']; subst.
    destruct I. constructor; cbn; try assumption.
    + rewrite pubs_app, dels_app. cbn [pubs dels]. rewrite app_nil_r, i_log0, <- app_assoc. reflexivity.
    + intros X. apply i_nz0. right. exact X.
    + intros x Hx. unfold updb. destruct (Z.eqb_spec x e) as [->|_]; [contradiction|]. apply i_busy0. right. exact Hx.
    + intros x y A. apply i_link0. destruct A as [A|A]; [left; apply adj_tl, A|right; exact A].
    + intros l' x [A|A]; [|apply (i_end0 l'); right; exact A]. apply (i_end0 (e :: l')). left. rewrite A. reflexivity.
    + intros q l' E. destruct (i_head0 q l' E) as [H|[H [H1|H1]]]; [left; exact H|right; split; [exact H|left; exact H1]|congruence].
    + intros t x H. destruct (i_pl1 t x H) as (H1 & H2 & _). split; [exact H1|]. split; [exact H2|discriminate].
    + intros t x p H Np. destruct (i_plp0 t x p H Np) as [H1 [A|A]]; [|split; [exact H1|right; exact A]].
      exfalso. rewrite (HL p x A) in H1. subst x. apply i_nz0, in_or_app. left. exact (proj2 (adj_in _ _ _ A)).
    + intros t x H. destruct (i_pre0 t x H) as (H1 & H2 & H3). split; [exact H1|]. split.
      * unfold updb. destruct (Z.eqb_spec x e) as [->|_]; [|exact H2]. exfalso. apply H3. left. reflexivity.
      * intros X. apply H3. right. exact X.
    + unfold cinv. cbn. split; [reflexivity|]. intros x y A. apply HL, adj_tl, A.
  - discriminate.
Qed.

Lemma inv_step : forall s B Q a s', Inv s B Q -> step s a = Some s' -> exists B' Q', Inv s' B' Q'.
Proof.
  intros s B Q [t e v|t| |x n v] s' I H; cbn [step] in H.
  - exists B, Q. exact (inv_start s B Q t e v s' I H).
  - destruct (inv_go s B Q t s' I H) as (Q' & H' & _). exists B, Q'. exact H'.
  - exists (nB (cns s) B Q), (nQ (cns s) Q). exact (inv_consume s B Q s' I H).
  - destruct (busy s x) eqn:E; [discriminate|]. injection H as <-. exists B, Q. exact (inv_scribble s B Q x n v I E).
Qed.

Lemma exec_inv : forall s l s', exec s l s' -> forall B Q, Inv s B Q -> exists B' Q', Inv s' B' Q'.
Proof.
  induction 1 as [|s a s1 l s2 E X IH]; intros B Q I; [exists B, Q; exact I|].
  destruct (inv_step s B Q a s1 I E) as (B' & Q' & I'). exact (IH B' Q' I').
Qed.

Lemma reach_inv : forall s, reach s -> exists B Q, Inv s B Q.
Proof. intros s (n & p & l & X). exact (exec_inv _ _ _ X [] [] (inv0 n p)). Qed.
