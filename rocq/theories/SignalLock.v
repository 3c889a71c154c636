(** The locks and the handlers of signals. *)
From Verif Require Import OrderSpec OrderModel OrderProofs ForkLock SignalSpec.
From Coq Require Import List Bool Arith Lia.
Import ListNotations.

Local Notation sgos c P := (sgoes_star lk lk_eqb c P).
Local Notation sgo c P := (sgoes lk lk_eqb c P).
Local Notation never_back := (SignalSpec.never_back lk lk_eqb).
Local Notation never_free := (SignalSpec.never_free lk lk_eqb).

(** ** Handlers in order *)
Lemma level_rank : forall l, level l = rank l.
Proof. intros [|[|c]|z| | |]; reflexivity. Qed.
Lemma follows_over : forall g h r e, follows h r e -> (forall x k, In x g -> In (Take k) r -> rank x < rank k) -> follows (h ++ g) r (e ++ g).
Proof.
  intros g h r e F. induction F as [h|h k x e K F IH|h k x e F IH]; intros L; cbn [app].
  - constructor.
  - constructor.
    + intros y I. apply in_app_iff in I. destruct I as [I|I]; [exact (K y I)|]. apply (L y k I). left. reflexivity.
    + apply IH. intros y z I J. apply (L y z I). right. exact J.
  - constructor. apply IH. intros y z I J. apply (L y z I). right. exact J.
Qed.
Section Good.
Variables (w : world) (egg : chn).
Hypotheses (MF : map_fails w = false) (FM : flag_moves w = false) (LM : libs_malloc w = false) (E : egg_ok egg).
Lemma held_sgo : forall s s' h, held_ok s h -> sgo (good w egg) in_order s s' -> exists h', held_ok s' h'.
Proof using MF FM LM E.
  intros s s' h H G. inversion G as [a b Go|a t r Gr P]; subst; [exact (held_go w egg MF FM LM E s s' h H Go)|].
  destruct H as (A & B & C & n & D). exists h. unfold interrupt. split; [|split; [exact B|split; [exact C|]]]; cbn [todo].
  - intros x. unfold tdo. destruct (Nat.eqb_spec x t) as [->|N]; [|apply A].
    apply (follows_app (h t) r (h t)); [|apply A].
    apply (follows_over (h t) [] r []); [exact (good_follows w egg MF FM LM E r Gr)|].
    intros y k I J. rewrite <- !level_rank. apply P; [apply B; exact I|exact J].
  - exists (Nat.max n (S t)). intros x L. unfold tdo. destruct (Nat.eqb_spec x t) as [->|N]; [lia|apply D; lia].
Qed.
Lemma held_sgos : forall s s', sgos (good w egg) in_order s s' -> forall h, held_ok s h -> exists h', held_ok s' h'.
Proof using MF FM LM E.
  induction 1 as [s|s s1 s2 G R IH]; intros h H; [exists h; exact H|]. destruct (held_sgo s s1 h H G) as (h1 & H1). exact (IH h1 H1).
Qed.
Lemma order_moves : forall s t, sgos (good w egg) in_order o0 s -> todo s t <> [] -> exists s', mv s s'.
Proof using MF FM LM E. intros s t R N. destruct (held_sgos o0 s R _ held_0) as (h & H). exact (progress s h t H N). Qed.
Lemma order_end : forall s, sgos (good w egg) in_order o0 s -> exists s', mvs s s' /\ all_out lk s'.
Proof using MF FM LM E.
  intros s R. destruct (held_sgos o0 s R _ held_0) as (h & H). pose proof H as (_ & _ & _ & n & D).
  eapply finish; [exact H|]. exists n. split; [exact D|apply le_n].
Qed.
End Good.

(** ** Handlers at any time *)
(** One lock: a thread that does not hold it takes it before it gives it back; one that holds it and takes it again waits. *)
Inductive sane (l : lk) : bool -> list opl -> Prop :=
| n_nil : forall b, sane l b []
| n_tother : forall b k x, k <> l -> sane l b x -> sane l b (Take k :: x)
| n_gother : forall b k x, k <> l -> sane l b x -> sane l b (Give k :: x)
| n_take : forall x, sane l true x -> sane l false (Take l :: x)
| n_self : forall x, sane l true (Take l :: x)
| n_give : forall x, sane l false x -> sane l true (Give l :: x).
Lemma sane_mono : forall l x, sane l false x -> sane l true x.
Proof.
  intros l x S. remember false as b eqn:Eb. induction S; try discriminate.
  - constructor.
  - constructor; auto.
  - constructor; auto.
  - apply n_self.
Qed.
Lemma sane_app0 : forall l b r y, sane l b r -> sane l false y -> sane l b (r ++ y).
Proof.
  intros l b r y S Y. induction S; cbn [app]; try (constructor; auto; fail).
  destruct b; [apply sane_mono|]; exact Y.
Qed.
Lemma sane_app1 : forall l r y, sane l false r -> sane l true y -> sane l true (r ++ y).
Proof.
  intros l r y S Y. remember false as b eqn:Eb. induction S; try discriminate; cbn [app].
  - exact Y.
  - constructor; auto.
  - constructor; auto.
  - apply n_self.
Qed.
Lemma sane_app : forall l b r y, sane l false r -> sane l b y -> sane l b (r ++ y).
Proof. intros l [|] r y S Y; [exact (sane_app1 l r y S Y)|exact (sane_app0 l false r y S Y)]. Qed.
Local Notation cnt h l := (count_occ lk_eq h l).
Lemma gives_sane : forall l h x e, gives h x e -> cnt h l <= 1 -> sane l (Nat.eqb (cnt h l) 1) x.
Proof.
  intros l h x e G. induction G as [h|h k x e G IH|a b k x e G IH]; intros L.
  - constructor.
  - cbn [count_occ] in IH. destruct (lk_eq k l) as [->|N].
    + destruct (Nat.eqb_spec (cnt h l) 1) as [Q|Q]; [apply n_self|]. assert (Z : cnt h l = 0) by lia. rewrite Z in IH.
      apply n_take. exact (IH (le_n 1)).
    + apply n_tother; [exact N|exact (IH L)].
  - rewrite count_occ_app in *. cbn [count_occ] in *. destruct (lk_eq k l) as [->|N].
    + assert (Za : cnt a l = 0) by lia. assert (Zb : cnt b l = 0) by lia. rewrite Za, Zb in *. cbn [Nat.add Nat.eqb] in *.
      apply n_give. apply IH. lia.
    + apply n_gother; [exact N|exact (IH L)].
Qed.
Lemma call_sane : forall w egg r l, any w egg r -> sane l false r.
Proof. intros w egg r l C. destruct (gives_any w egg r C) as (e & G). exact (gives_sane l [] r e G (le_S 0 0 (le_n 0))). Qed.

(** Locks [L] are taken for ever: nobody gives one back before having taken one. *)
Inductive inert (L : list lk) : list opl -> Prop :=
| i_nil : inert L []
| i_stop : forall k x, In k L -> inert L (Take k :: x)
| i_take : forall k x, inert L x -> inert L (Take k :: x)
| i_give : forall k x, ~ In k L -> inert L x -> inert L (Give k :: x).
Lemma sane_inert : forall L x, (forall l, In l L -> sane l false x) -> inert L x.
Proof.
  intros L x. induction x as [|[k|k] x IH]; intros S.
  - constructor.
  - destruct (in_dec lk_eq k L) as [I|I]; [apply i_stop; exact I|]. apply i_take, IH. intros l J. specialize (S l J).
    inversion S; subst; [assumption|contradiction].
  - apply i_give.
    + intros I. specialize (S k I). inversion S; subst. contradiction.
    + apply IH. intros l J. specialize (S l J). inversion S; subst. assumption.
Qed.
Lemma inert_app : forall L r y, inert L r -> inert L y -> inert L (r ++ y).
Proof.
  intros L r y R Y. induction R as [|k x I|k x R IH|k x I R IH]; cbn [app];
    [exact Y|apply i_stop; exact I|apply i_take; exact IH|apply i_give; assumption].
Qed.
Lemma inert_stop : forall L r y k, inert L r -> In (Take k) r -> In k L -> inert L (r ++ y).
Proof.
  intros L r y k R T K. induction R as [|j x I|j x R IH|j x I R IH]; cbn [app].
  - destruct T.
  - apply i_stop, I.
  - destruct T as [T|T]; [injection T as ->; apply i_stop, K|apply i_take, IH, T].
  - destruct T as [T|T]; [discriminate T|apply i_give; [exact I|apply IH, T]].
Qed.

Section Any.
Variables (w : world) (egg : chn).
Local Notation run := (sgos (any w egg) (anytime lk)).
Local Notation step := (sgo (any w egg) (anytime lk)).
Definition holds (s : st) (l : lk) (t : nat) : bool := match owner s l with Some u => Nat.eqb u t | None => false end.
Definition all_sane (s : st) : Prop := forall l t, sane l (holds s l t) (todo s t).
Lemma sane_step : forall s s', all_sane s -> step s s' -> all_sane s'.
Proof using.
  intros s s' A G. inversion G as [a b Go|a t r C _]; subst.
  - inversion Go as [a b M|a t r T C]; subst.
    + inversion M as [a t k r T O|a t k r T]; subst; intros l u; unfold holds; cbn [owner todo]; unfold own, tdo, lk_eqb.
      * pose proof (A l u) as S. pose proof (A l t) as St. unfold holds in S, St. rewrite T in St.
        destruct (lk_eq l k) as [->|N].
        -- rewrite O in S, St. destruct (Nat.eqb_spec u t) as [->|N].
           ++ rewrite Nat.eqb_refl. inversion St; subst; [contradiction|assumption].
           ++ apply Nat.eqb_neq in N. rewrite Nat.eqb_sym, N. exact S.
        -- destruct (Nat.eqb_spec u t) as [->|N1]; [|exact S].
           inversion St; subst; [assumption|contradiction|contradiction].
      * pose proof (A l u) as S. pose proof (A l t) as St. unfold holds in S, St. rewrite T in St.
        destruct (lk_eq l k) as [->|N].
        -- destruct (owner s k) as [v|] eqn:O; [|inversion St; subst; contradiction].
           destruct (Nat.eqb_spec v t) as [->|N]; [|inversion St; subst; contradiction].
           destruct (Nat.eqb_spec u t) as [->|N].
           ++ inversion St; subst; [contradiction|assumption].
           ++ assert (N' : Nat.eqb t u = false) by (apply Nat.eqb_neq; congruence). rewrite N' in S. exact S.
        -- destruct (Nat.eqb_spec u t) as [->|N1]; [|exact S].
           inversion St; subst; [assumption|contradiction].
    + intros l u. unfold holds. cbn [owner todo]. unfold tdo. destruct (Nat.eqb_spec u t) as [->|N]; [|exact (A l u)].
      pose proof (call_sane w egg r l C) as S. destruct (match owner s l with Some u => Nat.eqb u t | None => false end); [apply sane_mono|]; exact S.
  - intros l u. unfold holds, interrupt. cbn [owner todo]. unfold tdo. destruct (Nat.eqb_spec u t) as [->|N]; [|exact (A l u)].
    apply sane_app; [exact (call_sane w egg r l C)|exact (A l t)].
Qed.
Lemma sane_run : forall s s', run s s' -> all_sane s -> all_sane s'.
Proof using. induction 1 as [s|s s1 s2 G R IH]; intros A; [exact A|]. apply IH. exact (sane_step s s1 A G). Qed.
Lemma sane_0 : all_sane o0.
Proof using. intros l t. constructor. Qed.

(** [t] waits in front of [rest] for a lock of [L]. *)
Definition barred (L : list lk) (s : st) : Prop := (forall l, In l L -> owner s l <> None) /\ forall t, inert L (todo s t).
Definition waits (L : list lk) (s : st) (t : nat) (rest : list opl) : Prop :=
  exists x k, todo s t = x ++ rest /\ inert L x /\ In (Take k) x /\ In k L.
Lemma call_inert : forall L r, any w egg r -> inert L r.
Proof using. intros L r C. apply sane_inert. intros l _. exact (call_sane w egg r l C). Qed.
Lemma barred_step : forall L s s', barred L s -> step s s' ->
  barred L s' /\ forall t rest, waits L s t rest -> waits L s' t rest.
Proof using.
  intros L s s' (O & A) G. inversion G as [a b Go|a u r C _]; subst.
  - inversion Go as [a b M|a u r T C]; subst.
    + inversion M as [a u k r T Ok|a u k r T]; subst.
      * assert (NL : ~ In k L) by (intros I; exact (O k I Ok)). split; [split|].
        -- intros l I. cbn [owner]. unfold own. destruct (lk_eqb l k); [discriminate|exact (O l I)].
        -- intros t. cbn [todo]. unfold tdo. destruct (Nat.eqb_spec t u) as [->|N]; [|apply A].
           specialize (A u). rewrite T in A. inversion A; subst; [contradiction|assumption].
        -- intros t rest (x & j & X & Ix & J & JL). unfold waits. cbn [todo]. unfold tdo.
           destruct (Nat.eqb_spec t u) as [->|N]; [|exists x, j; split; [exact X|split; [exact Ix|split; [exact J|exact JL]]]].
           rewrite T in X. destruct x as [|o x]; [destruct J|]. cbn [app] in X. injection X as <- X. exists x, j.
           split; [exact X|]. split; [inversion Ix; subst; [contradiction|assumption]|]. split; [|exact JL].
           destruct J as [J|J]; [injection J as ->; contradiction|exact J].
      * assert (NL : ~ In k L) by (intros I; specialize (A u); rewrite T in A; inversion A; subst; contradiction). split; [split|].
        -- intros l I. cbn [owner]. unfold own, lk_eqb. destruct (lk_eq l k) as [->|N]; [contradiction|exact (O l I)].
        -- intros t. cbn [todo]. unfold tdo. destruct (Nat.eqb_spec t u) as [->|N]; [|apply A].
           specialize (A u). rewrite T in A. inversion A; subst. assumption.
        -- intros t rest (x & j & X & Ix & J & JL). unfold waits. cbn [todo]. unfold tdo.
           destruct (Nat.eqb_spec t u) as [->|N]; [|exists x, j; split; [exact X|split; [exact Ix|split; [exact J|exact JL]]]].
           rewrite T in X. destruct x as [|o x]; [destruct J|]. cbn [app] in X. injection X as <- X. exists x, j.
           split; [exact X|]. split; [inversion Ix; subst; assumption|]. split; [|exact JL].
           destruct J as [J|J]; [discriminate J|exact J].
    + split; [split; [exact O|]|].
      * intros t. cbn [todo]. unfold tdo. destruct (Nat.eqb_spec t u) as [->|N]; [exact (call_inert L r C)|apply A].
      * intros t rest (x & j & X & Ix & J & JL). unfold waits. cbn [todo]. unfold tdo.
        destruct (Nat.eqb_spec t u) as [->|N]; [|exists x, j; split; [exact X|split; [exact Ix|split; [exact J|exact JL]]]].
        rewrite T in X. destruct x as [|o x]; [destruct J|discriminate X].
  - unfold interrupt. split; [split; [exact O|]|].
    + intros t. cbn [todo]. unfold tdo. destruct (Nat.eqb_spec t u) as [->|N]; [|apply A].
      apply inert_app; [exact (call_inert L r C)|apply A].
    + intros t rest (x & j & X & Ix & J & JL). unfold waits. cbn [todo]. unfold tdo.
      destruct (Nat.eqb_spec t u) as [->|N]; [|exists x, j; split; [exact X|split; [exact Ix|split; [exact J|exact JL]]]].
      exists (r ++ x), j. rewrite X. split; [apply app_assoc|]. split; [exact (inert_app L r x (call_inert L r C) Ix)|].
      split; [apply in_or_app; right; exact J|exact JL].
Qed.
Lemma barred_run : forall L s s', run s s' -> barred L s -> barred L s' /\ forall t rest, waits L s t rest -> waits L s' t rest.
Proof using.
  induction 1 as [s|s s1 s2 G R IH]; intros B; [split; [exact B|auto]|]. destruct (barred_step L s s1 B G) as (B1 & W1).
  destruct (IH B1) as (B2 & W2). split; [exact B2|]. intros t rest W. apply W2, W1, W.
Qed.
Lemma barred_never : forall L s, barred L s -> (forall l, In l L -> never_free (any w egg) s l) /\
  forall t rest, waits L s t rest -> never_back (any w egg) s t rest.
Proof using.
  intros L s B. split.
  - intros l I s' R. destruct (barred_run L s s' R B) as ((O & _) & _). exact (O l I).
  - intros t rest W s' R. destruct (barred_run L s s' R B) as (_ & K). destruct (K t rest W) as (x & k & X & _ & J & _).
    exists x. split; [intros ->; destruct J|exact X].
Qed.
(** A thread holds a lock and its handler needs it. *)
Lemma self_barred : forall s t l r, all_sane s -> owner s l = Some t -> any w egg r -> In (Take l) r ->
  barred [l] (interrupt lk s t r) /\ waits [l] (interrupt lk s t r) t (todo s t).
Proof using.
  intros s t l r A O C I. unfold interrupt. split; [split|].
  - intros k [<-|[]]. cbn [owner]. congruence.
  - intros u. cbn [todo]. unfold tdo. destruct (Nat.eqb_spec u t) as [->|N].
    + apply (inert_stop [l] r _ l); [exact (call_inert [l] r C)|exact I|left; reflexivity].
    + apply sane_inert. intros k [<-|[]]. pose proof (A l u) as S. unfold holds in S. rewrite O in S.
      assert (Q : Nat.eqb t u = false) by (apply Nat.eqb_neq; congruence). rewrite Q in S. exact S.
  - exists r, l. cbn [todo]. unfold tdo. rewrite Nat.eqb_refl. split; [reflexivity|]. split; [exact (call_inert [l] r C)|].
    split; [exact I|left; reflexivity].
Qed.
Lemma self_never : forall s t l r, run o0 s -> owner s l = Some t -> any w egg r -> In (Take l) r ->
  never_back (any w egg) (interrupt lk s t r) t (todo s t) /\ never_free (any w egg) (interrupt lk s t r) l.
Proof using.
  intros s t l r R O C I. destruct (self_barred s t l r (sane_run o0 s R sane_0) O C I) as (B & W).
  destruct (barred_never [l] _ B) as (F & K). split; [exact (K t _ W)|apply F; left; reflexivity].
Qed.
(** Another call that needs such a lock. *)
Lemma free_waits : forall l s t r s', never_free (any w egg) s l -> run s s' -> todo s' t = [] -> In (Take l) r -> any w egg r ->
  never_back (any w egg) (mkO (owner s') (tdo lk s' t r)) t [].
Proof using.
  intros l s t r s' F R T I C s2 R2.
  assert (F1 : forall a b, run a b -> never_free (any w egg) a l -> In (Take l) (todo a t) -> In (Take l) (todo b t)).
  { clear - I. induction 1 as [a|a a1 b G Rb IH]; intros F J; [exact J|].
    assert (O : owner a l <> None) by (apply F; constructor).
    apply IH; [intros c Rc; apply F; econstructor; eassumption|].
    inversion G as [a0 b0 Go|a0 u q Cq _]; subst.
    - inversion Go as [a0 b0 M|a0 u q T C]; subst.
      + inversion M as [a0 u k q T Ok|a0 u k q T]; subst; cbn [todo]; unfold tdo; (destruct (Nat.eqb_spec t u) as [->|]; [|exact J]);
          rewrite T in J; (destruct J as [J|J]; [|exact J]); [injection J as ->; contradiction|discriminate J].
      + cbn [todo]. unfold tdo. destruct (Nat.eqb_spec t u) as [->|]; [|exact J]. rewrite T in J. destruct J.
    - unfold interrupt. cbn [todo]. unfold tdo. destruct (Nat.eqb_spec t u) as [->|]; [|exact J]. apply in_or_app. right. exact J. }
  assert (Tr : forall a b c, run a b -> run b c -> run a c).
  { induction 1 as [a|a a1 b G Rb IH]; intros Rc; [exact Rc|]. econstructor; [exact G|exact (IH Rc)]. }
  assert (R1 : run s (mkO (owner s') (tdo lk s' t r))).
  { eapply Tr; [exact R|]. eapply ss_step; [|apply ss_refl]. apply sg_go, g_call; assumption. }
  exists (todo s2 t). rewrite app_nil_r. split; [|reflexivity]. intros Z.
  assert (K : In (Take l) (todo s2 t)).
  { apply (F1 _ _ R2); [intros c Rc; apply F; exact (Tr _ _ _ R1 Rc)|]. cbn [todo]. unfold tdo. rewrite Nat.eqb_refl. exact I. }
  rewrite Z in K. destruct K.
Qed.
(** Two threads: the handler of one waits for the other, which waits for the first. *)
Lemma cross_never : forall s t u l m r q, run o0 s -> t <> u -> owner s l = Some t -> owner s m = Some u -> todo s u = Take l :: q ->
  any w egg r -> In (Take m) r ->
  never_back (any w egg) (interrupt lk s t r) t (todo s t) /\ never_back (any w egg) (interrupt lk s t r) u q.
Proof using.
  intros s t u l m r q R D Ol Om Tu C I. pose proof (sane_run o0 s R sane_0) as A.
  assert (Bl : Nat.eqb u t = false) by (apply Nat.eqb_neq; congruence).
  assert (B : barred [l; m] (interrupt lk s t r)).
  { unfold interrupt. split.
    - intros k [<-|[<-|[]]]; cbn [owner]; congruence.
    - intros v. cbn [todo]. unfold tdo. destruct (Nat.eqb_spec v t) as [->|N].
      + apply (inert_stop [l; m] r _ m); [exact (call_inert _ r C)|exact I|right; left; reflexivity].
      + destruct (Nat.eq_dec v u) as [->|N2]; [rewrite Tu; apply i_stop; left; reflexivity|].
        apply sane_inert. intros k [<-|[<-|[]]]; pose proof (A l v) as S1; pose proof (A m v) as S2; unfold holds in S1, S2; rewrite Ol in S1; rewrite Om in S2.
        * assert (Q : Nat.eqb t v = false) by (apply Nat.eqb_neq; congruence). rewrite Q in S1. exact S1.
        * assert (Q : Nat.eqb u v = false) by (apply Nat.eqb_neq; congruence). rewrite Q in S2. exact S2. }
  destruct (barred_never [l; m] _ B) as (_ & K). split.
  - apply K. exists r, m. unfold interrupt. cbn [todo]. unfold tdo. rewrite Nat.eqb_refl. split; [reflexivity|].
    split; [exact (call_inert _ r C)|]. split; [exact I|right; left; reflexivity].
  - apply K. exists [Take l], l. unfold interrupt. cbn [todo]. unfold tdo. assert (Q : Nat.eqb u t = false) by (apply Nat.eqb_neq; congruence).
    rewrite Q, Tu. split; [reflexivity|]. split; [apply i_stop; left; reflexivity|]. split; [left; reflexivity|left; reflexivity].
Qed.

(** ** Such signals happen *)
Lemma run_goes : forall s s', goes_star lk lk_eqb (good w egg) s s' -> run s s'.
Proof using.
  assert (GA : forall a b, goes lk lk_eqb (good w egg) a b -> goes lk lk_eqb (any w egg) a b).
  { intros a b G. inversion G as [x y M|x t r T (p & C & P)]; subst; [apply g_move; exact M|].
    apply g_call; [exact T|]. exists p. split; [apply ac_good; exact C|exact P]. }
  induction 1 as [s|s s1 s2 G R IH]; [constructor|]. eapply ss_step; [apply sg_go, GA; exact G|exact IH].
Qed.
Lemma run_trans : forall a b c, run a b -> run b c -> run a c.
Proof using. induction 1 as [a|a a1 b G Rb IH]; intros Rc; [exact Rc|]. econstructor; [exact G|exact (IH Rc)]. Qed.
Lemma good_any : forall r, good w egg r -> any w egg r.
Proof using. intros r (p & C & P). exists p. split; [apply ac_good; exact C|exact P]. Qed.
(** A thread starts a call and takes its first lock. *)
Lemma one_lock : forall s t l r, todo s t = [] -> owner s l = None -> good w egg (Take l :: r) ->
  exists s', goes_star lk lk_eqb (good w egg) s s' /\ todo s' t = r /\ owner s' l = Some t /\ (forall m, m <> l -> owner s' m = owner s m) /\
    (forall u, u <> t -> todo s' u = todo s u).
Proof using.
  intros s t l r T O G. set (s1 := mkO (owner s) (tdo lk s t (Take l :: r)) : st).
  assert (T1 : todo s1 t = Take l :: r) by (cbn [s1 todo]; unfold tdo; rewrite Nat.eqb_refl; reflexivity).
  exists (mkO (own lk lk_eqb s1 l (Some t)) (tdo lk s1 t r)). split; [|split; [|split; [|split]]]; cbn [todo owner].
  - eapply gs_step; [apply (g_call lk lk_eqb (good w egg) s t _ T G)|]. eapply gs_step; [|apply gs_refl]. apply g_move.
    exact (m_take lk lk_eqb s1 t l r T1 O).
  - unfold tdo. rewrite Nat.eqb_refl. reflexivity.
  - unfold own. rewrite lk_eqb_refl. reflexivity.
  - intros m N. unfold own. rewrite (lk_eqb_neq m l N). reflexivity.
  - intros u N. apply Nat.eqb_neq in N. unfold tdo. rewrite N. cbn [s1 todo]. unfold tdo. rewrite N. reflexivity.
Qed.
Lemma handler_stuck : forall c l s t, egg_ok egg -> flag_moves w = false -> chn_ok c -> needs c l -> run o0 s ->
  todo s t = [] -> owner s l = None ->
  exists s', goes_star lk lk_eqb (good w egg) s s' /\ todo s' t = [Give l] /\
    never_back (any w egg) (interrupt lk s' t [Take l; Give l]) t [Give l] /\ never_free (any w egg) (interrupt lk s' t [Take l; Give l]) l.
Proof using.
  intros c l s t E FM C N R T O.
  assert (G : good w egg [Take l; Give l]) by (exists (malloc w egg c); split; [apply gc_malloc; left; exact C|exact (malloc_needs w egg c l E FM N)]).
  destruct (one_lock s t l [Give l] T O G) as (s1 & G1 & T1 & O1 & _). exists s1. split; [exact G1|]. split; [exact T1|].
  rewrite <- T1 at 2. apply self_never; [exact (run_trans _ _ _ R (run_goes s s1 G1))|exact O1|exact (good_any _ G)|left; reflexivity].
Qed.
Lemma shared_path : forall c x, safe c = true -> flag_moves w = false -> path (Alt Skip (request_mem w c)) x ->
  path (chain_alloc w c) (Take (LChain (cid c)) :: x ++ [Give (LChain (cid c))]).
Proof using.
  intros c x S FM P. unfold chain_alloc. apply p_right, p_right. unfold lock_chain, unlock_chain. rewrite S, FM.
  change (path (Seq (take (LChain (cid c))) (Seq (Alt Skip (request_mem w c)) (give (LChain (cid c)))))
    ([Take (LChain (cid c))] ++ x ++ [Give (LChain (cid c))])).
  apply p_seq; [constructor|]. apply p_seq; [exact P|constructor].
Qed.
Lemma handler_cross : forall c z s t u, flag_moves w = false -> chn_ok c -> safe c = true -> listed c = true -> source c = Light z ->
  run o0 s -> t <> u -> todo s t = [] -> todo s u = [] -> owner s LReg = None -> owner s (LChain (cid c)) = None ->
  let m := LChain (cid c) in
  exists s', goes_star lk lk_eqb (good w egg) s s' /\ todo s' t = [Give LReg] /\ todo s' u = [Take LReg; Give LReg; Give m] /\
    never_back (any w egg) (interrupt lk s' t [Take m; Give m]) t [Give LReg] /\
    never_back (any w egg) (interrupt lk s' t [Take m; Give m]) u [Give LReg; Give m].
Proof using.
  intros c z s t u FM C S L Z R D T U O Oc m.
  assert (G : good w egg [Take LReg; Give LReg]).
  { exists (malloc w egg c). split; [apply gc_malloc; left; exact C|]. apply malloc_path. exact (request_path w c z Z L). }
  assert (Gm : good w egg (Take m :: [Take LReg; Give LReg; Give m])).
  { exists (chain_alloc w c). split; [apply gc_alloc; left; exact C|].
    exact (shared_path c [Take LReg; Give LReg] S FM (p_right _ _ _ (request_path w c z Z L))). }
  assert (Gh : good w egg [Take m; Give m]).
  { exists (chain_alloc w c). split; [apply gc_alloc; left; exact C|]. exact (shared_path c [] S FM (p_left _ _ _ p_skip)). }
  destruct (one_lock s t LReg [Give LReg] T O G) as (s1 & G1 & T1 & O1 & P1 & K1).
  destruct (one_lock s1 u m [Take LReg; Give LReg; Give m]) as (s2 & G2 & T2 & O2 & P2 & K2).
  { rewrite K1 by congruence. exact U. }
  { rewrite P1 by discriminate. exact Oc. }
  { exact Gm. }
  assert (T3 : todo s2 t = [Give LReg]) by (rewrite K2 by congruence; exact T1).
  assert (O3 : owner s2 LReg = Some t) by (rewrite P2 by discriminate; exact O1).
  assert (R2 : run o0 s2) by (exact (run_trans _ _ _ (run_trans _ _ _ R (run_goes s s1 G1)) (run_goes s1 s2 G2))).
  exists s2. split; [|split; [exact T3|split; [exact T2|]]].
  - clear - G1 G2. induction G1 as [a|a a1 b G Rb IH]; [exact G2|]. eapply gs_step; [exact G|exact (IH G2)].
  - destruct (cross_never s2 t u LReg m [Take m; Give m] _ R2 D O3 O2 T2 (good_any _ Gh) (or_introl eq_refl)) as (A & B).
    rewrite T3 in A. split; [exact A|exact B].
Qed.
End Any.
