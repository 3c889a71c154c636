(** Sections protected by the spinlock are atomic. *)
From Verif Require Import Res LockModel LockProofs AtomicModel AtomicSpec.
From Coq Require Import ZArith List Bool Lia.
Import ListNotations.
Open Scope Z_scope.

Lemma erase_app : forall A R (a b : list (hev A R)), erase (a ++ b) = erase a ++ erase b.
Proof. induction a as [|[] a IH]; intros; cbn; rewrite ?IH; reflexivity. Qed.
Lemma points_app : forall A R (a b : list (hev A R)), points (a ++ b) = points a ++ points b.
Proof. induction a as [|[] a IH]; intros; cbn; rewrite ?IH; reflexivity. Qed.

Section Proof.
Context {S A R : Type}.
Variable P : A -> prog S R.
Variable s0 : S.

Definition sem (a : A) : S -> res (R * S) := prun (P a).

(** [s]: the shared state after the calls that took effect; [o]: the thread in the section, with its call. *)
Definition agrees (c : cst S A R) (s : S) (o : option nat) (t : nat) (ph : tph A R) : Prop :=
  match thr c t with
  | TOut => ph = Nothing
  | TSwap a | TSpin a => ph = Called a
  | TIn p => o = Some t /\ exists a, ph = Called a /\ prun p (sh c) = sem a s
  | TRet r => ph = Done r
  end.

Record CInv (c : cst S A R) (h : list (hev A R)) (f : nat -> tph A R) (s : S) (o : option nat) : Prop := {
  ci_tr : erase h = ctr c;
  ci_well : well h f;
  ci_seq : in_order sem s0 (points h) s;
  ci_lw : lw c = match o with None => 0 | Some _ => 1 end;
  ci_sh : o = None -> sh c = s;
  ci_in : forall t, o = Some t -> exists p, thr c t = TIn p;
  ci_thr : forall t, agrees c s o t (f t) }.

Lemma cinv0 : CInv (mkC s0 0 (fun _ => TOut) []) [] (fun _ => Nothing) s0 None.
Proof. constructor; cbn; try reflexivity; try constructor; try discriminate; intros; reflexivity. Qed.

Lemma cinv_step : forall c x c' h f s o, CInv c h f s o -> cstep P c x = Some c' -> exists h' f' s' o', CInv c' h' f' s' o'.
Proof.
  intros c x c' h f s o I H. destruct x as [t a|t]; cbn in H.
  - (* call *) destruct (thr c t) eqn:Et; try discriminate. injection H as <-. exists (h ++ [HCall t a]), (fupd f t (Called a)), s, o.
    assert (Ef : f t = Nothing) by (pose proof (ci_thr _ _ _ _ _ I t) as X; unfold agrees in X; rewrite Et in X; exact X).
    destruct I. constructor; cbn; try assumption.
    + rewrite erase_app, ci_tr0. reflexivity.
    + apply (well_call h f t a); [assumption|exact Ef|apply fupd_same|intros; apply fupd_other; assumption].
    + rewrite points_app. cbn. rewrite app_nil_r. assumption.
    + intros u Hu. destruct (Nat.eq_dec u t) as [->|N]; [|rewrite fupd_other by exact N; exact (ci_in0 u Hu)].
      destruct (ci_in0 t Hu) as (p & X). congruence.
    + intros u. specialize (ci_thr0 u). unfold agrees in *. cbn. destruct (Nat.eq_dec u t) as [->|N]; [rewrite !fupd_same; reflexivity|].
      rewrite !fupd_other by exact N. exact ci_thr0.
  - destruct (thr c t) as [|a|a|p|r] eqn:Et; try discriminate.
    + (* swap *) assert (Ef : f t = Called a) by (pose proof (ci_thr _ _ _ _ _ I t) as X; unfold agrees in X; rewrite Et in X; exact X).
      pose proof (ci_lw _ _ _ _ _ I) as W. rewrite W in H. destruct o as [u|]; cbn in H; injection H as <-.
      * exists h, f, s, (Some u). destruct I. constructor; cbn; try assumption; try reflexivity; try discriminate.
        -- intros w Hw. destruct (Nat.eq_dec w t) as [->|N]; [|rewrite fupd_other by exact N; exact (ci_in0 w Hw)].
           destruct (ci_in0 t Hw) as (p & X). congruence.
        -- intros w. specialize (ci_thr0 w). unfold agrees in *. cbn. destruct (Nat.eq_dec w t) as [->|N]; [rewrite fupd_same; exact Ef|].
           rewrite fupd_other by exact N. exact ci_thr0.
      * exists h, f, s, (Some t). destruct I. constructor; cbn; try assumption; try reflexivity; try discriminate.
        -- intros w Hw. injection Hw as <-. exists (P a). apply fupd_same.
        -- intros w. specialize (ci_thr0 w). unfold agrees in *. cbn. destruct (Nat.eq_dec w t) as [->|N].
           ++ rewrite fupd_same. split; [reflexivity|]. exists a. split; [exact Ef|]. rewrite (ci_sh0 eq_refl). reflexivity.
           ++ rewrite fupd_other by exact N. destruct (thr c w); try exact ci_thr0. destruct ci_thr0 as [X _]. discriminate.
    + (* spin *) assert (Ef : f t = Called a) by (pose proof (ci_thr _ _ _ _ _ I t) as X; unfold agrees in X; rewrite Et in X; exact X).
      injection H as <-. exists h, f, s, o. destruct I. constructor; cbn; try assumption.
      * intros w Hw. destruct (Nat.eq_dec w t) as [->|N]; [|rewrite fupd_other by exact N; exact (ci_in0 w Hw)].
        destruct (ci_in0 t Hw) as (p & X). congruence.
      * intros w. specialize (ci_thr0 w). unfold agrees in *. cbn. destruct (Nat.eq_dec w t) as [->|N].
        -- rewrite fupd_same. destruct (lw c =? 0); exact Ef.
        -- rewrite fupd_other by exact N. exact ci_thr0.
    + (* section *)
      pose proof (ci_thr _ _ _ _ _ I t) as X. unfold agrees in X. rewrite Et in X. destruct X as (-> & a & Ef & Er).
      destruct p as [r|g].
      * (* unlock: the call takes effect *) injection H as <-. exists (h ++ [HLin t a r]), (fupd f t (Done r)), (sh c), None.
        cbn in Er. destruct I. constructor; cbn; try assumption; try reflexivity; try discriminate.
        -- rewrite erase_app. cbn. rewrite app_nil_r. assumption.
        -- apply (well_lin h f t a r); [assumption|exact Ef|apply fupd_same|intros; apply fupd_other; assumption].
        -- rewrite points_app. cbn. econstructor; [eassumption|]. symmetry. exact Er.
        -- intros w. specialize (ci_thr0 w). unfold agrees in *. cbn. destruct (Nat.eq_dec w t) as [->|N]; [rewrite !fupd_same; reflexivity|].
           rewrite !fupd_other by exact N. destruct (thr c w); try exact ci_thr0. destruct ci_thr0 as [X _]. congruence.
      * (* one step *) cbn in Er. destruct (g (sh c)) as [[s' p']| | |] eqn:Eg; try discriminate. injection H as <-.
        exists h, f, s, (Some t). destruct I. constructor; cbn; try assumption; try discriminate.
        -- intros w Hw. injection Hw as <-. exists p'. apply fupd_same.
        -- intros w. specialize (ci_thr0 w). unfold agrees in *. cbn. destruct (Nat.eq_dec w t) as [->|N].
           ++ rewrite fupd_same. split; [reflexivity|]. exists a. split; [exact Ef|exact Er].
           ++ rewrite fupd_other by exact N. destruct (thr c w); try exact ci_thr0. destruct ci_thr0 as [X _]. congruence.
    + (* return *) injection H as <-. assert (Ef : f t = Done r) by (pose proof (ci_thr _ _ _ _ _ I t) as X; unfold agrees in X; rewrite Et in X; exact X).
      exists (h ++ [HRet t r]), (fupd f t Nothing), s, o. destruct I. constructor; cbn; try assumption.
      * rewrite erase_app, ci_tr0. reflexivity.
      * apply (well_ret h f t r); [assumption|exact Ef|apply fupd_same|intros; apply fupd_other; assumption].
      * rewrite points_app. cbn. rewrite app_nil_r. assumption.
      * intros w Hw. destruct (Nat.eq_dec w t) as [->|N]; [|rewrite fupd_other by exact N; exact (ci_in0 w Hw)].
        destruct (ci_in0 t Hw) as (p & X). congruence.
      * intros w. specialize (ci_thr0 w). unfold agrees in *. cbn. destruct (Nat.eq_dec w t) as [->|N]; [rewrite !fupd_same; reflexivity|].
        rewrite !fupd_other by exact N. exact ci_thr0.
Qed.

Lemma cexec_inv : forall c, cexec P s0 c -> exists h f s o, CInv c h f s o.
Proof.
  induction 1 as [|c x c' X (h & f & s & o & I) E]; [exists [], (fun _ => Nothing), s0, None; exact cinv0|].
  exact (cinv_step c x c' h f s o I E).
Qed.

Lemma atomic_linearizable : forall c, cexec P s0 c -> linearizable sem s0 (ctr c).
Proof.
  intros c X. destruct (cexec_inv c X) as (h & f & s & o & I). exists h, f, s.
  split; [exact (ci_tr _ _ _ _ _ I)|]. split; [exact (ci_well _ _ _ _ _ I)|exact (ci_seq _ _ _ _ _ I)].
Qed.

Lemma atomic_state : forall c, cexec P s0 c -> quiet c -> exists h f, erase h = ctr c /\ well h f /\ in_order sem s0 (points h) (sh c).
Proof.
  intros c X Q. destruct (cexec_inv c X) as (h & f & s & o & I). exists h, f.
  split; [exact (ci_tr _ _ _ _ _ I)|]. split; [exact (ci_well _ _ _ _ _ I)|].
  destruct o as [t|].
  - exfalso. destruct (ci_in _ _ _ _ _ I t eq_refl) as (p & E). specialize (Q t). rewrite E in Q. exact Q.
  - rewrite (ci_sh _ _ _ _ _ I eq_refl). exact (ci_seq _ _ _ _ _ I).
Qed.
End Proof.

Lemma in_order_ext : forall S A R (f g : A -> S -> res (R * S)) s l s', (forall a x, f a x = g a x) -> in_order f s l s' -> in_order g s l s'.
Proof. intros S A R f g s l s' E H. induction H; econstructor; [eassumption|]. rewrite <- E. assumption. Qed.
