(** Invariant of the spinlock with store buffers. *)
From Verif Require Import LockModel LockSpec LockProofs LockTsoModel LockTsoSpec.
From Coq Require Import ZArith List Bool Lia.
Import ListNotations.
Open Scope Z_scope.

Lemma sections_app : forall a b d o, sections d o (a ++ b) =
  match sections d o a with Some (o', d') => sections d' o' b | None => None end.
Proof.
  induction a as [|[t|t|t|t x v|t x v] a IH]; intros b d o; cbn; [reflexivity| | | | |].
  - destruct o; [reflexivity|apply IH].
  - apply IH.
  - destruct o as [u|]; [destruct (Nat.eqb u t); [apply IH|reflexivity]|reflexivity].
  - destruct o as [u|]; [destruct (Nat.eqb u t); [apply IH|reflexivity]|reflexivity].
  - destruct o as [u|]; [destruct (_ && _); [apply IH|reflexivity]|reflexivity].
Qed.

Definition all_data (b : list lwr) : Prop := forall x, In x b -> x <> WUnl.
(** Who controls the data: nobody; a thread that holds the lock; a thread whose unlock is still in its buffer. *)
Inductive ctl := CNone | CHold (t : nat) | CLeave (t : nat).
Definition ctl_thr (c : ctl) : option nat := match c with CNone => None | CHold t | CLeave t => Some t end.
Definition ctl_own (c : ctl) : option nat := match c with CHold t => Some t | _ => None end.

Record MI (d : Z -> Z) (s : mst) (c : ctl) (m : Z -> Z) : Prop := {
  mi_tr : sections d None (mtr s) = Some (ctl_own c, m);
  mi_held : forall t, mheld s t = true <-> ctl_own c = Some t;
  mi_word : mword s = match c with CNone => 0 | _ => 1 end;
  mi_unl : forall t, mp s t = LUnl -> ctl_own c = Some t;
  mi_other : forall t, ctl_thr c <> Some t -> mbuf s t = [];
  mi_buf : match c with CNone => True | CHold t => all_data (mbuf s t) | CLeave t => exists b, mbuf s t = b ++ [WUnl] /\ all_data b end;
  mi_data : match ctl_thr c with None => forall a, mdata s a = m a | Some t => forall a, ldd (mbuf s t) a (mdata s a) = m a end }.

Lemma mi0 : forall d, MI d (m0 d) CNone d.
Proof. intros d. constructor; cbn; try reflexivity; auto; intros t; [split; discriminate|discriminate]. Qed.

Lemma ldd_app : forall b b' a m, ldd (b ++ b') a m = ldd b' a (ldd b a m).
Proof. induction b as [|[x v|] b IH]; intros b' a m; cbn; auto. Qed.

Lemma mi_pc : forall d s c m t p, MI d s c m -> (p = LUnl -> ctl_own c = Some t) ->
  MI d (mkM (mword s) (mdata s) (mbuf s) (fupd (mp s) t p) (mheld s) (mtr s)) c m.
Proof.
  intros d s c m t p I H. constructor; cbn; try apply I. intros u. destruct (Nat.eq_dec u t) as [->|N].
  - rewrite fupd_same. exact H.
  - rewrite fupd_other by exact N. apply I.
Qed.

Lemma mi_acq : forall d s c m t, MI d s c m -> mword s = 0 -> exists m', MI d (m_acq s t) (CHold t) m'.
Proof.
  intros d s c m t I W. assert (c = CNone). { pose proof (mi_word _ _ _ _ I) as X. rewrite W in X. destruct c; [reflexivity|discriminate|discriminate]. }
  subst c. exists m. constructor; cbn.
  - rewrite sections_app, (mi_tr _ _ _ _ I). reflexivity.
  - intros u. destruct (Nat.eq_dec u t) as [->|N]; [rewrite fupd_same; tauto|]. rewrite fupd_other by exact N.
    rewrite (mi_held _ _ _ _ I). cbn. split; [discriminate|congruence].
  - reflexivity.
  - intros u. destruct (Nat.eq_dec u t) as [->|N]; [reflexivity|]. rewrite fupd_other by exact N. intros X. apply (mi_unl _ _ _ _ I) in X. discriminate.
  - intros u _. apply (mi_other _ _ _ _ I). discriminate.
  - rewrite (mi_other _ _ _ _ I t ltac:(discriminate)). intros x [].
  - rewrite (mi_other _ _ _ _ I t ltac:(discriminate)). cbn. apply (mi_data _ _ _ _ I).
Qed.

Lemma mi_step : forall d s c m x s', MI d s c m -> mstep true s x = Some s' -> exists c' m', MI d s' c' m'.
Proof.
  intros d s c m x s' I E. destruct x as [t|t|t|t|t a|t a v|t i]; cbn [mstep] in E.
  - destruct (mp s t); try discriminate. injection E as <-. exists c, m. apply mi_pc; [exact I|discriminate].
  - destruct (mp s t); try discriminate. injection E as <-. exists c, m. apply mi_pc; [exact I|discriminate].
  - destruct (mp s t); try discriminate. destruct (mheld s t) eqn:H; [|discriminate]. injection E as <-. exists c, m. apply mi_pc; [exact I|].
    intros _. apply I. exact H.
  - unfold mgo in E. destruct (mp s t) eqn:P; try discriminate.
    + destruct (mempty s t); [|discriminate]. cbn [negb] in E. destruct (Z.eqb_spec (mword s) 0) as [W|W]; injection E as <-.
      * destruct (mi_acq d s c m t I W) as [m' X]. eauto.
      * exists c, m. pose proof (mi_word _ _ _ _ I) as X. assert (W1 : mword s = 1) by (destruct c; [congruence|exact X|exact X]).
        pose proof (mi_pc d s c m t LSpin I ltac:(discriminate)) as Y. rewrite W1 in Y. exact Y.
    + injection E as <-. exists c, m. apply mi_pc; [exact I|]. destruct (_ =? 0); discriminate.
    + destruct (mempty s t); [|discriminate]. cbn [negb] in E. destruct (Z.eqb_spec (mword s) 0) as [W|W]; injection E as <-.
      * destruct (mi_acq d s c m t I W) as [m' X]. eauto.
      * exists c, m. pose proof (mi_word _ _ _ _ I) as X. assert (W1 : mword s = 1) by (destruct c; [congruence|exact X|exact X]).
        pose proof (mi_pc d s c m t LOut I ltac:(discriminate)) as Y. rewrite W1 in Y. destruct Y. constructor; cbn in *; auto.
        rewrite sections_app, mi_tr0. reflexivity.
    + injection E as <-. pose proof (mi_unl _ _ _ _ I t P) as O. destruct c as [|u|u]; try discriminate. injection O as ->.
      exists (CLeave t), m. constructor; cbn.
      * rewrite sections_app, (mi_tr _ _ _ _ I). cbn. rewrite Nat.eqb_refl. reflexivity.
      * intros u. destruct (Nat.eq_dec u t) as [->|N]; [rewrite fupd_same; split; discriminate|]. rewrite fupd_other by exact N.
        rewrite (mi_held _ _ _ _ I). cbn. split; [congruence|discriminate].
      * exact (mi_word _ _ _ _ I).
      * intros u. destruct (Nat.eq_dec u t) as [->|N]; [rewrite fupd_same; discriminate|]. rewrite fupd_other by exact N.
        intros X. apply (mi_unl _ _ _ _ I) in X. cbn in X. congruence.
      * intros u N. rewrite fupd_other by congruence. apply (mi_other _ _ _ _ I). exact N.
      * rewrite fupd_same. exists (mbuf s t). split; [reflexivity|exact (mi_buf _ _ _ _ I)].
      * intros a. rewrite fupd_same, ldd_app. cbn. exact (mi_data _ _ _ _ I a).
  - destruct (mp s t); try discriminate. destruct (mheld s t) eqn:H; [|discriminate]. injection E as <-. exists c, m.
    apply (mi_held _ _ _ _ I) in H. destruct c as [|u|u]; try discriminate. injection H as ->. constructor; cbn; try apply I.
    rewrite sections_app, (mi_tr _ _ _ _ I). cbn. rewrite Nat.eqb_refl. cbn. rewrite <- (mi_data _ _ _ _ I a), Z.eqb_refl. reflexivity.
  - destruct (mp s t); try discriminate. destruct (mheld s t) eqn:H; [|discriminate]. injection E as <-.
    apply (mi_held _ _ _ _ I) in H. destruct c as [|u|u]; try discriminate. injection H as ->.
    exists (CHold t), (fun x => if x =? a then v else m x). constructor; cbn; try apply I.
    + rewrite sections_app, (mi_tr _ _ _ _ I). cbn. rewrite Nat.eqb_refl. reflexivity.
    + intros u N. rewrite fupd_other by congruence. apply (mi_other _ _ _ _ I). exact N.
    + rewrite fupd_same. intros x J. apply in_app_or in J. destruct J as [J|[<-|[]]]; [exact (mi_buf _ _ _ _ I x J)|discriminate].
    + intros b. rewrite fupd_same, ldd_app. cbn. rewrite (Z.eqb_sym a b). destruct (b =? a); [reflexivity|]. exact (mi_data _ _ _ _ I b).
  - unfold mflush in E. destruct (nth_error (mbuf s t) i) as [x|] eqn:Nx; [|discriminate]. destruct (Nat.eqb_spec i 0) as [->|]; [|discriminate].
    destruct (mbuf s t) as [|y r] eqn:Eb; [discriminate|]. cbn in Nx. injection Nx as ->. cbn [firstn skipn app] in E. injection E as <-.
    assert (CT : ctl_thr c = Some t).
    { destruct c as [|u|u]; cbn; [|destruct (Nat.eq_dec u t); [congruence|]..];
        (pose proof (mi_other _ _ _ _ I t ltac:(cbn; congruence)) as X; rewrite Eb in X; discriminate). }
    assert (OT : forall u, ctl_thr c <> Some u -> fupd (mbuf s) t r u = []).
    { intros u N. rewrite fupd_other by congruence. apply (mi_other _ _ _ _ I). exact N. }
    destruct x as [a v|]; cbn [mapply].
    + exists c, m. constructor; cbn; try apply I; try exact OT.
      * pose proof (mi_buf _ _ _ _ I) as B. destruct c as [|u|u]; [exact Logic.I| |]; cbn in CT; injection CT as ->; rewrite fupd_same; rewrite Eb in B.
        -- intros z J. apply B. right. exact J.
        -- destruct B as (b & B1 & B2). destruct b as [|z b]; [discriminate|]. injection B1 as B1 B3. exists b. split; [exact B3|].
           intros y J. apply B2. right. exact J.
      * pose proof (mi_data _ _ _ _ I) as D. rewrite CT in *. intros b. rewrite fupd_same. rewrite <- (D b), Eb. cbn. unfold zupd.
        rewrite (Z.eqb_sym b a). destruct (Z.eqb_spec a b) as [->|]; reflexivity.
    + pose proof (mi_buf _ _ _ _ I) as B. destruct c as [|u|u]; cbn in CT; [discriminate| |]; injection CT as ->; rewrite Eb in B.
      * exfalso. exact (B WUnl (or_introl eq_refl) eq_refl).
      * destruct B as (b & B1 & B2). assert (b = [] /\ r = []).
        { destruct b as [|z b]; [injection B1 as ->; auto|]. injection B1 as <- _. exfalso. exact (B2 WUnl (or_introl eq_refl) eq_refl). }
        destruct H as [-> ->]. exists CNone, m. constructor; cbn; try apply I; try reflexivity.
        -- intros u _. destruct (Nat.eq_dec u t) as [->|N]; [apply fupd_same|]. apply OT. cbn. congruence.
        -- intros a. pose proof (mi_data _ _ _ _ I a) as D. cbn in D. rewrite Eb in D. exact D.
Qed.
Lemma mi_exec : forall f s l s', mexec f s l s' -> f = true -> forall d c m, MI d s c m -> exists c' m', MI d s' c' m'.
Proof.
  induction 1 as [s|s a s1 l s2 E X IH]; intros F d c m I; [eauto|]. subst f.
  destruct (mi_step d s c m a s1 I E) as (c' & m' & I'). exact (IH eq_refl d c' m' I').
Qed.
Lemma mi_reach : forall d s, mreach true d s -> exists c m, MI d s c m.
Proof. intros d s [l X]. exact (mi_exec _ _ _ _ X eq_refl d CNone d (mi0 d)). Qed.

Lemma tso_mutex : forall d s t u, mreach true d s -> mheld s t = true -> mheld s u = true -> t = u.
Proof. intros d s t u R H1 H2. destruct (mi_reach d s R) as (c & m & I). apply (mi_held _ _ _ _ I) in H1, H2. congruence. Qed.
Lemma tso_sections : forall d s, mreach true d s -> exists o m, sections d None (mtr s) = Some (o, m) /\ (forall t, mheld s t = true <-> o = Some t).
Proof. intros d s R. destruct (mi_reach d s R) as (c & m & I). exists (ctl_own c), m. split; apply I. Qed.
(** When the lock is free in memory the data is in memory. *)
Lemma tso_visible : forall d s, mreach true d s -> mword s = 0 -> exists m, sections d None (mtr s) = Some (None, m) /\ forall a, mdata s a = m a.
Proof.
  intros d s R W. destruct (mi_reach d s R) as (c & m & I). pose proof (mi_word _ _ _ _ I) as X. rewrite W in X.
  destruct c; try discriminate. exists m. split; apply I.
Qed.

Lemma mflush_head : forall s t x r, mbuf s t = x :: r -> mstep true s (MFlush t 0) =
  Some (mapply (mkM (mword s) (mdata s) (fupd (mbuf s) t r) (mp s) (mheld s) (mtr s)) x).
Proof. intros s t x r E. cbn [mstep]. unfold mflush. rewrite E. reflexivity. Qed.
Lemma mapply_same : forall s x, mbuf (mapply s x) = mbuf s /\ mp (mapply s x) = mp s /\ mheld (mapply s x) = mheld s /\ mtr (mapply s x) = mtr s.
Proof. intros s [a v|]; auto. Qed.
Lemma mempty_all : forall b s t, mbuf s t = b -> exists s', mexec true s (repeat (MFlush t 0) (length b)) s' /\ mbuf s' t = [] /\
  mp s' = mp s /\ mheld s' = mheld s.
Proof.
  induction b as [|x b IH]; intros s t E; [exists s; split; [constructor|auto]|].
  destruct (mapply_same (mkM (mword s) (mdata s) (fupd (mbuf s) t b) (mp s) (mheld s) (mtr s)) x) as (A1 & A2 & A3 & _).
  cbn [mbuf mp mheld] in *.
  destruct (IH (mapply (mkM (mword s) (mdata s) (fupd (mbuf s) t b) (mp s) (mheld s) (mtr s)) x) t) as (s' & X & F1 & F2 & F3); [rewrite A1; apply fupd_same|].
  exists s'. split; [|rewrite F2, F3, A2, A3; auto]. cbn [length repeat]. econstructor; [exact (mflush_head s t x b E)|exact X].
Qed.
Lemma mexec_app : forall f s l s1 k s2, mexec f s l s1 -> mexec f s1 k s2 -> mexec f s (l ++ k) s2.
Proof. intros f s l s1 k s2 H. induction H; cbn; auto. intros X. econstructor; eauto. Qed.

Lemma tso_taken : forall d s t, mreach true d s -> (forall u, mheld s u = false) -> mp s t = LSwap \/ mp s t = LSpin ->
  exists u n k s', (k <= 2)%nat /\ mexec true s (repeat (MFlush u 0) n ++ repeat (MGo t) k) s' /\ mheld s' t = true /\ mp s' t = LOut.
Proof.
  intros d s t R NH W. destruct (mi_reach d s R) as (c & m & I).
  assert (X : exists u n s1, mexec true s (repeat (MFlush u 0) n) s1 /\ mword s1 = 0 /\ (mbuf s1 t = []) /\ mp s1 = mp s /\ mheld s1 = mheld s).
  { destruct c as [|u|u].
    - exists O, O, s. split; [constructor|]. split; [exact (mi_word _ _ _ _ I)|]. split; [apply (mi_other _ _ _ _ I); discriminate|auto].
    - exfalso. pose proof (proj2 (mi_held _ _ _ _ I u) eq_refl) as H. rewrite NH in H. discriminate.
    - destruct (mempty_all _ s u eq_refl) as (s1 & X1 & B1 & P1 & H1). exists u, (length (mbuf s u)), s1. split; [exact X1|].
      assert (R1 : mreach true d s1) by (destruct R as [l X]; exists (l ++ repeat (MFlush u 0) (length (mbuf s u))); exact (mexec_app _ _ _ _ _ _ X X1)).
      destruct (mi_reach d s1 R1) as (c1 & m1 & I1).
      assert (C1 : c1 = CNone).
      { destruct c1 as [|y|y]; [reflexivity| |].
        - exfalso. pose proof (proj2 (mi_held _ _ _ _ I1 y) eq_refl) as H. rewrite H1, NH in H. discriminate.
        - exfalso. destruct (mi_buf _ _ _ _ I1) as (b & Bb & _). destruct (Nat.eq_dec y u) as [->|N].
          + rewrite B1 in Bb. destruct b; discriminate.
          + assert (Y : mbuf s1 y = mbuf s y).
            { clear -X1 N. revert X1. generalize (length (mbuf s u)) as n. intros n. revert s.
              induction n as [|n IH]; intros s X1; cbn in X1; inversion X1 as [|? ? s2 ? ? E X2]; subst; [reflexivity|].
              rewrite (IH s2 X2). cbn [mstep] in E. unfold mflush in E. destruct (nth_error (mbuf s u) 0) as [x|]; [|discriminate]. cbn in E.
              injection E as <-. destruct (mapply_same (mkM (mword s) (mdata s) (fupd (mbuf s) u (match mbuf s u with [] => [] | _ :: l => l end)) (mp s) (mheld s) (mtr s)) x) as (A1 & _).
              rewrite A1. cbn. apply fupd_other. exact N. }
            rewrite Y in Bb. rewrite (mi_other _ _ _ _ I y ltac:(cbn; congruence)) in Bb. destruct b; discriminate. }
      subst c1. split; [exact (mi_word _ _ _ _ I1)|]. split; [apply (mi_other _ _ _ _ I1); discriminate|auto]. }
  destruct X as (u & n & s1 & X1 & W1 & B1 & P1 & H1). exists u, n. destruct W as [W|W].
  - exists 1%nat, (m_acq s1 t). split; [lia|]. split; [|split; [cbn; apply fupd_same|cbn; apply fupd_same]].
    apply (mexec_app _ _ _ _ _ _ X1). cbn. econstructor; [|constructor]. cbn [mstep]. unfold mgo, mempty. rewrite P1, W, B1, W1. reflexivity.
  - set (s2 := mkM (mword s1) (mdata s1) (mbuf s1) (fupd (mp s1) t LSwap) (mheld s1) (mtr s1)).
    exists 2%nat, (m_acq s2 t). split; [lia|]. split; [|split; [cbn; apply fupd_same|cbn; apply fupd_same]].
    apply (mexec_app _ _ _ _ _ _ X1). cbn. apply (mexec_cons true s1 (MGo t) s2).
    + cbn [mstep]. unfold mgo. rewrite P1, W, B1. cbn. rewrite W1. unfold s2. rewrite P1, W1. reflexivity.
    + econstructor; [|constructor]. cbn [mstep]. unfold mgo, mempty. unfold s2 at 1. cbn [mp]. rewrite fupd_same. unfold s2 at 1 2. cbn [mbuf mword]. rewrite B1, W1. reflexivity.
Qed.

Fixpoint mplay (f : bool) (s : mst) (l : list mact) : option mst :=
  match l with [] => Some s | a :: r => match mstep f s a with Some s1 => mplay f s1 r | None => None end end.
Lemma mplay_exec : forall f l s s', mplay f s l = Some s' -> mexec f s l s'.
Proof.
  induction l as [|a l IH]; intros s s' H; cbn in H; [injection H as ->; constructor|].
  destruct (mstep f s a) as [s1|] eqn:E; [|discriminate]. econstructor; [exact E|]. exact (IH s1 s' H).
Qed.
