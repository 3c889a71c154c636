(** Proofs for HeapTsoSpec: every execution with the store buffers of x86 tells a story. *)
From Verif Require Import LockModel LockProofs HeapTsoModel HeapTsoSpec.
From Coq Require Import ZArith List Bool Lia.
Import ListNotations.
Open Scope Z_scope.

Lemma inb_in c l : inb c l = true <-> In c l.
Proof. unfold inb. rewrite existsb_exists. split; [intros (x & H & E); apply Z.eqb_eq in E; subst; exact H|intros H; exists c; split; [exact H|apply Z.eqb_refl]]. Qed.
Lemma inb_out c l : ~ In c l -> inb c l = false.
Proof. intros H. destruct (inb c l) eqn:E; [apply inb_in in E; tauto|reflexivity]. Qed.
Lemma oset_in o l w c : In c l -> oset o l w c = w.
Proof. intros H. unfold oset. rewrite (proj2 (inb_in c l) H). reflexivity. Qed.
Lemma oset_out o l w c : ~ In c l -> oset o l w c = o c.
Proof. intros H. unfold oset. rewrite (inb_out c l H). reflexivity. Qed.
Lemma in_dec_z (c : Z) l : {In c l} + {~ In c l}. Proof. apply in_dec. exact Z.eq_dec. Qed.
Lemma has_spec t w : has t w = true <-> exists ro, w = OUse ro false t.
Proof.
  destruct w as [|ro [] u]; cbn; [split; [discriminate|intros [ro H]; discriminate]|split; [discriminate|intros [r H]; discriminate]|].
  rewrite Nat.eqb_eq. split; [intros ->; eauto|intros [r H]; congruence].
Qed.
Lemma has_rw_spec t w : has_rw t w = true <-> w = OUse false false t.
Proof. destruct w as [|[] [] u]; cbn; try (split; discriminate). rewrite Nat.eqb_eq. split; congruence. Qed.
Lemma alloc_spec w : is_alloc w = true <-> w = OAlloc. Proof. destruct w; cbn; split; congruence. Qed.
Lemma way_spec w : on_way w = true <-> exists ro t, w = OUse ro true t.
Proof. destruct w as [|ro [] t]; cbn; split; try discriminate; eauto; intros (r & u & H); discriminate. Qed.

Definition no_data (b : list hwr) (c : Z) : Prop := forall v, ~ In (WData c v) b.
Lemma ldc_none b c m : no_data b c -> ldc b c m = m.
Proof.
  revert m. induction b as [|x b IH]; intros m H; [reflexivity|]. assert (H' : no_data b c) by (intros v J; apply (H v); right; exact J).
  destruct x as [y v| |u l]; cbn; try exact (IH m H'). destruct (Z.eqb_spec y c) as [->|N]; [|exact (IH m H')]. exfalso. apply (H v). left. reflexivity.
Qed.
Lemma ldc_app b b' c m : ldc (b ++ b') c m = ldc b' c (ldc b c m).
Proof. revert m. induction b as [|[y v| |u l] b IH]; intros m; cbn; auto. Qed.
Lemma no_data_dec b c : {no_data b c} + {exists v, In (WData c v) b}.
Proof.
  induction b as [|x b IH]; [left; intros v []|]. destruct IH as [N|Y]; [|right; destruct Y as [v J]; exists v; right; exact J].
  destruct x as [y v| |u l].
  - destruct (Z.eq_dec y c) as [->|D]; [right; exists v; left; reflexivity|]. left. intros w [J|J]; [congruence|exact (N w J)].
  - left. intros w [J|J]; [discriminate|exact (N w J)].
  - left. intros w [J|J]; [discriminate|exact (N w J)].
Qed.

Lemma prun_ext p : forall m m', (forall c, m c = m' c) -> fst (prun p m) = fst (prun p m') /\ forall c, snd (prun p m) c = snd (prun p m') c.
Proof.
  induction p as [r|c k IH|c v k IH]; intros m m' E; cbn.
  - auto.
  - rewrite (E c). apply IH. exact E.
  - apply IH. intros x. destruct (x =? c); [reflexivity|apply E].
Qed.
(** What matters of the owners for a body. *)
Definition kind (w : owner) : option bool := match w with OAlloc => None | OUse ro _ _ => Some ro end.
Lemma safe_ext p : forall o o' m m', (forall c, kind (o c) = kind (o' c)) -> (forall c, m c = m' c) -> safe o p m -> safe o' p m'.
Proof.
  induction p as [r|c k IH|c v k IH]; intros o o' m m' K E S; cbn in *; [exact Logic.I| |].
  - destruct S as [S1 S2]. split.
    + pose proof (K c) as X. destruct (o c) as [|[] ? ?], (o' c) as [|[] ? ?]; cbn in X; try discriminate; tauto.
    + rewrite <- (E c). exact (IH _ o o' m m' K E S2).
  - destruct S as [S1 S2]. split.
    + pose proof (K c) as X. rewrite S1 in X. destruct (o' c); [reflexivity|discriminate].
    + apply (IH o o' _ _ K) with (2 := S2). intros x. destruct (x =? c); [reflexivity|apply E].
Qed.
Lemma frame p : forall o m c x, safe o p m -> kind (o c) = Some false ->
  safe o p (cset m c x) /\ fst (prun p (cset m c x)) = fst (prun p m) /\ forall y, snd (prun p (cset m c x)) y = cset (snd (prun p m)) c x y.
Proof.
  induction p as [r|d k IH|d v k IH]; intros o m c x S K; cbn in *; [auto| |].
  - destruct S as [S1 S2]. assert (N : d <> c). { intros ->. destruct (o c) as [|[] ? ?]; cbn in K; try discriminate; tauto. }
    unfold cset at 1 3 5. rewrite (proj2 (Z.eqb_neq d c) N). destruct (IH (m d) o m c x S2 K) as (A & B & C). auto.
  - destruct S as [S1 S2]. assert (N : d <> c) by (intros ->; rewrite S1 in K; discriminate).
    destruct (IH o (fun y => if y =? d then v else m y) c x S2 K) as (A & B & C).
    assert (E : forall y, cset (fun y => if y =? d then v else m y) c x y = (fun y => if y =? d then v else cset m c x y) y).
    { intros y. unfold cset. destruct (Z.eqb_spec y c) as [->|]; [|reflexivity]. rewrite (proj2 (Z.eqb_neq c d)); [reflexivity|congruence]. }
    destruct (prun_ext k _ _ E) as [F G]. split; [split; [exact S1|exact (safe_ext k o o _ _ (fun _ => eq_refl) E A)]|].
    split; [rewrite <- F; exact B|]. intros y. rewrite <- G. apply C.
Qed.

(** Who is in control of the lock: nobody, a thread in the body, a thread whose unlock is in its buffer. *)
Inductive hctl := XNone | XHold (t : nat) | XLeave (t : nat).
Definition xthr (c : hctl) : option nat := match c with XNone => None | XHold t | XLeave t => Some t end.

(** The buffer of thread [t] is in order. *)
Fixpoint inorder (o : Z -> owner) (t : nat) (b : list hwr) : Prop :=
  match b with
  | [] => True
  | WData _ _ :: r => inorder o t r
  | WUnl :: r => ~ In WUnl r /\ (forall c v, In (WData c v) r -> kind (o c) = Some false) /\ inorder o t r
  | WHand _ l :: r => (forall c, In c l -> (exists ro, o c = OUse ro true t) /\ no_data r c /\ forall u' l', In (WHand u' l') r -> ~ In c l') /\ inorder o t r
  end.
(** A store of [t] waits: what this says about the cell. *)
Definition waits (ct : hctl) (t : nat) (w : owner) : Prop :=
  match w with OAlloc => xthr ct = Some t | OUse ro _ u => u = t /\ (ro = true -> ct = XLeave t) end.
(** The value of a cell. *)
Definition value (ct : hctl) (m : Z -> Z) (b : nat -> list hwr) (o : Z -> owner) (c : Z) : Z :=
  match o c with
  | OAlloc => match xthr ct with Some t => ldc (b t) c (m c) | None => m c end
  | OUse _ _ t => ldc (b t) c (m c)
  end.

Lemma inorder_ext o o' t b : inorder o t b -> (forall c v, In (WData c v) b -> kind (o c) = Some false -> kind (o' c) = Some false) ->
  (forall u l c ro, In (WHand u l) b -> In c l -> o c = OUse ro true t -> exists ro', o' c = OUse ro' true t) -> inorder o' t b.
Proof.
  induction b as [|x b IH]; intros I D H; [exact Logic.I|].
  assert (IH' : inorder o t b -> inorder o' t b).
  { intros I'. apply (IH I'); [intros c v J; exact (D c v (or_intror J))|intros u l c ro J; exact (H u l c ro (or_intror J))]. }
  destruct x as [y v| |u l]; cbn in *.
  - exact (IH' I).
  - destruct I as (I1 & I2 & I3). split; [exact I1|]. split; [|exact (IH' I3)]. intros c v J. exact (D c v (or_intror J) (I2 c v J)).
  - destruct I as (I1 & I2). split; [|exact (IH' I2)]. intros c J. destruct (I1 c J) as ((ro & R) & N & L).
    split; [exact (H u l c ro (or_introl eq_refl) J R)|]. split; assumption.
Qed.
Lemma inorder_data o t b c v : inorder o t b -> (In WUnl b -> kind (o c) = Some false) -> (forall ro, o c <> OUse ro true t) -> inorder o t (b ++ [WData c v]).
Proof.
  induction b as [|x b IH]; intros I U W; [exact Logic.I|].
  assert (IH' : inorder o t b -> inorder o t (b ++ [WData c v])).
  { intros I'. apply (IH I'); [intros J; exact (U (or_intror J))|exact W]. }
  destruct x as [y w| |u l]; cbn in *.
  - exact (IH' I).
  - destruct I as (I1 & I2 & I3). split; [intros J; apply in_app_or in J; destruct J as [J|[J|[]]]; [exact (I1 J)|discriminate]|].
    split; [|exact (IH' I3)]. intros d w J. apply in_app_or in J. destruct J as [J|[J|[]]]; [exact (I2 d w J)|]. injection J as <- <-. apply U. left. reflexivity.
  - destruct I as (I1 & I2). split; [|exact (IH' I2)]. intros d J. destruct (I1 d J) as ((ro & R) & N & L). split; [eauto|]. split.
    + intros w K. apply in_app_or in K. destruct K as [K|[K|[]]]; [exact (N w K)|]. injection K as -> _. exact (W ro R).
    + intros u' l' K. apply in_app_or in K. destruct K as [K|[K|[]]]; [exact (L u' l' K)|discriminate].
Qed.
Lemma inorder_unl o t b : inorder o t b -> ~ In WUnl b -> inorder o t (b ++ [WUnl]).
Proof.
  induction b as [|x b IH]; intros I U; [cbn; split; [tauto|split; [intros c v []|exact Logic.I]]|].
  assert (IH' : inorder o t b -> inorder o t (b ++ [WUnl])).
  { intros I'. apply (IH I'). intros J. exact (U (or_intror J)). }
  destruct x as [y w| |u l]; cbn in *.
  - exact (IH' I).
  - tauto.
  - destruct I as (I1 & I2). split; [|exact (IH' I2)]. intros d J. destruct (I1 d J) as ((ro & R) & N & L). split; [eauto|]. split.
    + intros w K. apply in_app_or in K. destruct K as [K|[K|[]]]; [exact (N w K)|discriminate].
    + intros u' l' K. apply in_app_or in K. destruct K as [K|[K|[]]]; [exact (L u' l' K)|discriminate].
Qed.
Lemma inorder_hand o t b u l : inorder o t b -> (forall c, In c l -> exists ro, o c = OUse ro true t) -> (forall u' l' c, In (WHand u' l') b -> In c l' -> ~ In c l) ->
  inorder o t (b ++ [WHand u l]).
Proof.
  induction b as [|x b IH]; intros I W U.
  - cbn. split; [|exact Logic.I]. intros c J. split; [exact (W c J)|]. split; [intros v []|intros u' l' []].
  - assert (IH' : inorder o t b -> inorder o t (b ++ [WHand u l])).
    { intros I'. apply (IH I' W). intros u' l' c J. exact (U u' l' c (or_intror J)). }
    destruct x as [y w| |u0 l0]; cbn in *.
    + exact (IH' I).
    + destruct I as (I1 & I2 & I3). split; [intros J; apply in_app_or in J; destruct J as [J|[J|[]]]; [exact (I1 J)|discriminate]|].
      split; [|exact (IH' I3)]. intros d w J. apply in_app_or in J. destruct J as [J|[J|[]]]; [exact (I2 d w J)|discriminate].
    + destruct I as (I1 & I2). split; [|exact (IH' I2)]. intros d J. destruct (I1 d J) as (R & N & L). split; [exact R|]. split.
      * intros w K. apply in_app_or in K. destruct K as [K|[K|[]]]; [exact (N w K)|discriminate].
      * intros u' l' K. apply in_app_or in K. destruct K as [K|[K|[]]]; [exact (L u' l' K)|]. injection K as <- <-. exact (U u0 l0 d (or_introl eq_refl) J).
Qed.
Lemma hand_way o t b u l c : inorder o t b -> In (WHand u l) b -> In c l -> exists ro, o c = OUse ro true t.
Proof.
  induction b as [|x b IH]; intros I J K; [destruct J|]. destruct J as [J|J]; [subst x; cbn in I; apply I; exact K|].
  apply IH; [destruct x; cbn in I; tauto|exact J|exact K].
Qed.

Section Heap.
Context (A : Type) (P : A -> prog) (gives : A -> list Z) (takes heads : A -> Z -> list Z) (mi : Z -> Z) (oi : Z -> owner).
Notation story := (story A P gives takes heads).
Notation hstep := (hstep A P gives takes heads true).
Context (RA : right_alone A P gives takes heads mi oi).

Definition stat_of (p : hpc A) : stat A :=
  match p with HOut _ => SOut A | HSwap _ a | HSpin _ a | HIn _ a _ => SIn A a | HDone _ r => SRet A r end.

Record HI (s : hst A) (q : seqst A) (ct : hctl) (v : Z -> Z) : Prop := {
  i_story : story (q0 A mi oi) (htr A s) = Some q;
  i_stat : forall t, qc A q t = stat_of (hp A s t);
  i_word : hw A s = match ct with XNone => 0 | _ => 1 end;
  i_in : forall t a p, hp A s t = HIn A a p -> ct = XHold t;
  i_gives : forall t a c, qc A q t = SIn A a -> In c (gives a) -> exists ro, qo A q c = OUse ro false t;
  i_unl : forall t, In WUnl (hbuf A s t) <-> ct = XLeave t;
  i_order : forall t, inorder (hown A s) t (hbuf A s t);
  i_waits : forall t c x, In (WData c x) (hbuf A s t) -> waits ct t (hown A s c);
  i_value : forall c, v c = value ct (hm A s) (hbuf A s) (hown A s) c;
  i_prog : match ct with
           | XHold t => exists a p, hp A s t = HIn A a p /\ (forall c, hown A s c = oset (qo A q) (gives a) OAlloc c) /\ safe (hown A s) p v /\
               fst (prun (P a) (qm A q)) = fst (prun p v) /\ (forall c, snd (prun (P a) (qm A q)) c = snd (prun p v) c) /\
               forall c, hown A s c <> OAlloc -> v c = qm A q c
           | _ => (forall c, hown A s c = qo A q c) /\ forall c, v c = qm A q c
           end }.

Lemma story_app h q h' : story q (h ++ h') = match story q h with Some q' => story q' h' | None => None end.
Proof using.
  clear RA. revert q. induction h as [|e h IH]; intros q; [reflexivity|]. cbn [app HeapTsoSpec.story]. destruct (tell A P gives takes heads q e); [apply IH|reflexivity].
Qed.
Lemma story_one s q ct v e q' : HI s q ct v -> tell A P gives takes heads q e = Some q' -> story (q0 A mi oi) (htr A s ++ [e]) = Some q'.
Proof using. intros I E. rewrite story_app, (i_story _ _ _ _ I). cbn. rewrite E. reflexivity. Qed.

Lemma hi_start : HI (h0 A mi oi) (q0 A mi oi) XNone mi.
Proof using.
  constructor; cbn.
  - reflexivity.
  - reflexivity.
  - reflexivity.
  - discriminate.
  - discriminate.
  - intros t. split; [intros []|discriminate].
  - intros t. exact Logic.I.
  - intros t c x [].
  - intros c. unfold value. cbn. destruct (oi c); reflexivity.
  - split; reflexivity.
Qed.
(** Owners outside a body: a cell that a thread has is the same for the story. *)
Lemma own_use s q ct v c ro w t : HI s q ct v -> hown A s c = OUse ro w t -> qo A q c = OUse ro w t.
Proof using.
  intros I O. pose proof (i_prog _ _ _ _ I) as G. destruct ct as [|u|u].
  - rewrite (proj1 G) in O. exact O.
  - destruct G as (a & p & _ & G & _). rewrite G in O. destruct (in_dec_z c (gives a)) as [J|J]; [rewrite oset_in in O by exact J; discriminate|].
    rewrite oset_out in O by exact J. exact O.
  - rewrite (proj1 G) in O. exact O.
Qed.
Lemma val_use s q ct v c : HI s q ct v -> hown A s c <> OAlloc -> v c = qm A q c.
Proof using.
  intros I O. pose proof (i_prog _ _ _ _ I) as G. destruct ct as [|u|u]; [apply G| |apply G].
  destruct G as (a & p & _ & _ & _ & _ & _ & G). exact (G c O).
Qed.
Lemma use_has s q ct v t l : HI s q ct v -> forallb (fun c => has t (hown A s c)) l = true -> forallb (fun c => has t (qo A q c)) l = true.
Proof using.
  intros I H. rewrite forallb_forall in *. intros c J. specialize (H c J). apply has_spec in H. destruct H as [ro H].
  apply has_spec. exists ro. exact (own_use _ _ _ _ _ _ _ _ I H).
Qed.

(** A step that only moves a thread outside the bodies. *)
Lemma hi_move s q ct v t p : HI s q ct v -> stat_of p = stat_of (hp A s t) -> (forall a r, p <> HIn A a r) -> (forall a r, hp A s t <> HIn A a r) ->
  HI (set_hp A s t p) q ct v.
Proof using.
  intros I S N N'. constructor; cbn; try apply I.
  - intros u. destruct (Nat.eq_dec u t) as [->|D]; [rewrite fupd_same, S; apply I|]. rewrite fupd_other by exact D. apply I.
  - intros u a r. destruct (Nat.eq_dec u t) as [->|D]; [rewrite fupd_same; intros X; destruct (N a r X)|]. rewrite fupd_other by exact D. apply I.
  - pose proof (i_prog _ _ _ _ I) as G. destruct ct as [|u|u]; try exact G. destruct G as (a & r & G0 & G). exists a, r. split; [|exact G].
    rewrite fupd_other; [exact G0|]. intros ->. destruct (N' a r G0).
Qed.

Lemma value_ext ct m b o c ct' m' b' o' : o' c = o c -> m' c = m c -> (forall t, ldc (b' t) c (m c) = ldc (b t) c (m c)) -> xthr ct' = xthr ct ->
  value ct' m' b' o' c = value ct m b o c.
Proof using. intros E M B X. unfold value. rewrite E, M, X. destruct (o c); [destruct (xthr ct); [apply B|reflexivity]|apply B]. Qed.
Lemma ldc_push (b : nat -> list hwr) t x u c m : (forall v, x <> WData c v) -> ldc (fupd b t (b t ++ [x]) u) c m = ldc (b u) c m.
Proof using.
  intros N. destruct (Nat.eq_dec u t) as [->|D]; [rewrite fupd_same, ldc_app|rewrite fupd_other by exact D; reflexivity].
  destruct x as [y v| |u' l]; cbn; try reflexivity. destruct (Z.eqb_spec y c) as [->|]; [destruct (N v eq_refl)|reflexivity].
Qed.
Lemma in_push (b : nat -> list hwr) t x u y : In y (fupd b t (b t ++ [x]) u) -> In y (b u) \/ (u = t /\ y = x).
Proof using.
  destruct (Nat.eq_dec u t) as [->|D]; [rewrite fupd_same; intros J; apply in_app_or in J; destruct J as [J|[J|[]]]; [left; exact J|right; auto]|].
  rewrite fupd_other by exact D. auto.
Qed.

(** The lock is taken. *)
Lemma hi_take s q v t a : HI s q XNone v -> hbuf A s t = [] -> hp A s t = HSwap A a ->
  HI (mkH A 1 (hm A s) (hbuf A s) (fupd (hp A s) t (HIn A a (P a))) (oset (hown A s) (gives a) OAlloc) (htr A s)) q (XHold t) v.
Proof using RA.
  intros I B H. pose proof (i_prog _ _ _ _ I) as [GO GV].
  assert (QS : qc A q t = SIn A a) by (rewrite (i_stat _ _ _ _ I), H; reflexivity).
  destruct (RA _ _ t a (i_story _ _ _ _ I) QS) as [SF _].
  assert (OE : forall c, oset (hown A s) (gives a) OAlloc c = oset (qo A q) (gives a) OAlloc c).
  { intros c. unfold oset. destruct (inb c (gives a)); [reflexivity|apply GO]. }
  assert (NA : forall u c x, In (WData c x) (hbuf A s u) -> ~ In c (gives a) /\ hown A s c <> OAlloc).
  { intros u c x J. pose proof (i_waits _ _ _ _ I u c x J) as W. split.
    - intros K. destruct (i_gives _ _ _ _ I t a c QS K) as [ro O]. rewrite <- GO in O. rewrite O in W. cbn in W. destruct W as [-> _]. rewrite B in J. destruct J.
    - intros O. rewrite O in W. discriminate. }
  constructor; cbn.
  - apply I.
  - intros u. destruct (Nat.eq_dec u t) as [->|D]; [rewrite fupd_same; exact QS|]. rewrite fupd_other by exact D. apply I.
  - reflexivity.
  - intros u a' p. destruct (Nat.eq_dec u t) as [->|D]; [reflexivity|]. rewrite fupd_other by exact D. intros X. apply (i_in _ _ _ _ I) in X. discriminate.
  - apply I.
  - intros u. split; [intros J; apply (i_unl _ _ _ _ I) in J; discriminate|discriminate].
  - intros u. apply (inorder_ext (hown A s)); [apply I| |].
    + intros c x J K. destruct (NA u c x J) as [N _]. rewrite oset_out by exact N. exact K.
    + intros u' l c ro J K O. exists ro. rewrite oset_out; [exact O|]. intros G. destruct (i_gives _ _ _ _ I t a c QS G) as [ro' O']. rewrite <- GO in O'. congruence.
  - intros u c x J. destruct (NA u c x J) as [N N']. rewrite oset_out by exact N. pose proof (i_waits _ _ _ _ I u c x J) as W.
    destruct (hown A s c) as [|ro w u']; [congruence|]. cbn in W |- *. destruct W as [W1 W2]. split; [exact W1|]. intros R. discriminate (W2 R).
  - intros c. rewrite (i_value _ _ _ _ I c). unfold value. cbn [xthr]. destruct (in_dec_z c (gives a)) as [J|J].
    + rewrite oset_in by exact J. destruct (i_gives _ _ _ _ I t a c QS J) as [ro O]. rewrite <- GO in O. rewrite O, B. reflexivity.
    + rewrite oset_out by exact J. destruct (hown A s c); [rewrite B; reflexivity|reflexivity].
  - exists a, (P a). split; [apply fupd_same|]. split; [exact OE|].
    assert (EV : forall c, qm A q c = v c) by (intros c; symmetry; apply GV).
    destruct (prun_ext (P a) _ _ EV) as [F1 F2]. split; [|split; [exact F1|split; [exact F2|intros c _; apply GV]]].
    apply (safe_ext (P a) (oset (qo A q) (gives a) OAlloc) _ (qm A q) v); [intros c; rewrite OE; reflexivity|exact EV|exact SF].
Qed.

(** What a body loads. *)
Lemma body_load s q v t a c k : HI s q (XHold t) v -> hp A s t = HIn A a (PRd c k) -> ldc (hbuf A s t) c (hm A s c) = v c.
Proof using.
  intros I H. pose proof (i_prog _ _ _ _ I) as (a' & p & G0 & GO & SF & _). rewrite H in G0. injection G0 as <- <-. cbn in SF. destruct SF as [S1 _].
  rewrite (i_value _ _ _ _ I c). unfold value. cbn [xthr]. destruct (hown A s c) as [|ro w u] eqn:O; [reflexivity|]. destruct ro; [|tauto].
  assert (N : forall u', no_data (hbuf A s u') c).
  { intros u' x J. pose proof (i_waits _ _ _ _ I u' c x J) as W. rewrite O in W. cbn in W. destruct W as [_ W]. discriminate (W eq_refl). }
  rewrite !ldc_none by apply N. reflexivity.
Qed.

Lemma hi_load s q v t a c k : HI s q (XHold t) v -> hp A s t = HIn A a (PRd c k) -> HI (set_hp A s t (HIn A a (k (v c)))) q (XHold t) v.
Proof using.
  intros I H. constructor; cbn; try apply I.
  - intros u. destruct (Nat.eq_dec u t) as [->|D]; [rewrite fupd_same, (i_stat _ _ _ _ I), H; reflexivity|]. rewrite fupd_other by exact D. apply I.
  - intros u a' p. destruct (Nat.eq_dec u t) as [->|D]; [reflexivity|]. rewrite fupd_other by exact D. apply I.
  - pose proof (i_prog _ _ _ _ I) as (a' & p & G0 & GO & SF & G1 & G2 & G3). rewrite H in G0. injection G0 as <- <-. exists a, (k (v c)).
    split; [apply fupd_same|]. split; [exact GO|]. split; [exact (proj2 SF)|]. split; [exact G1|]. split; [exact G2|exact G3].
Qed.

Lemma hi_store s q v t a c x k : HI s q (XHold t) v -> hp A s t = HIn A a (PWr c x k) ->
  HI (set_hp A (push A s t (WData c x)) t (HIn A a k)) q (XHold t) (cset v c x).
Proof using.
  intros I H. pose proof (i_prog _ _ _ _ I) as (a' & p & G0 & GO & SF & G1 & G2 & G3). rewrite H in G0. injection G0 as <- <-. cbn in SF. destruct SF as [S1 S2].
  assert (NU : forall u, ~ In WUnl (hbuf A s u)) by (intros u J; apply (i_unl _ _ _ _ I) in J; discriminate).
  constructor; cbn; try apply I.
  - intros u. destruct (Nat.eq_dec u t) as [->|D]; [rewrite fupd_same, (i_stat _ _ _ _ I), H; reflexivity|]. rewrite fupd_other by exact D. apply I.
  - intros u a' p. destruct (Nat.eq_dec u t) as [->|D]; [reflexivity|]. rewrite fupd_other by exact D. apply I.
  - intros u. split; [|discriminate]. intros J. apply in_push in J. destruct J as [J|[_ J]]; [destruct (NU u J)|discriminate].
  - intros u. destruct (Nat.eq_dec u t) as [->|D]; [|rewrite fupd_other by exact D; apply I]. rewrite fupd_same.
    apply inorder_data; [apply I|intros J; destruct (NU t J)|intros ro; rewrite S1; discriminate].
  - intros u y z J. apply in_push in J. destruct J as [J|[-> J]]; [exact (i_waits _ _ _ _ I u y z J)|]. injection J as -> _. rewrite S1. reflexivity.
  - intros y. unfold cset. destruct (Z.eqb_spec y c) as [->|N].
    + unfold value. rewrite S1. cbn [xthr]. rewrite fupd_same, ldc_app. cbn. rewrite Z.eqb_refl. reflexivity.
    + rewrite (i_value _ _ _ _ I y). symmetry. apply value_ext; try reflexivity. intros u. apply ldc_push. intros z E. injection E as E _. congruence.
  - exists a, k. split; [apply fupd_same|]. split; [exact GO|]. split; [exact S2|]. split; [exact G1|]. split; [exact G2|].
    intros y O. unfold cset. destruct (Z.eqb_spec y c) as [->|N]; [congruence|exact (G3 y O)].
Qed.

Lemma hi_unlock s q v t a r : HI s q (XHold t) v -> hp A s t = HIn A a (PRet r) -> exists q',
  HI (see A (set_own A (set_hp A (push A s t WUnl) t (HDone A r)) (oset (oset (hown A s) (takes a r) (OUse false false t)) (heads a r) (OUse true false t))) (HvOp A t r))
     q' (XLeave t) v.
Proof using RA.
  intros I H. pose proof (i_prog _ _ _ _ I) as (a' & p & G0 & GO & SF & G1 & G2 & G3). rewrite H in G0. injection G0 as <- <-. cbn in G1, G2.
  assert (QS : qc A q t = SIn A a) by (rewrite (i_stat _ _ _ _ I), H; reflexivity).
  destruct (RA _ _ t a (i_story _ _ _ _ I) QS) as [_ TK]. rewrite G1 in TK.
  set (o := oset (qo A q) (gives a) OAlloc) in *.
  set (o1 := oset (oset o (takes a r) (OUse false false t)) (heads a r) (OUse true false t)).
  set (o2 := oset (oset (hown A s) (takes a r) (OUse false false t)) (heads a r) (OUse true false t)).
  assert (OE : forall c, o2 c = o1 c).
  { intros c. unfold o1, o2, oset. destruct (inb c (heads a r)); [reflexivity|]. destruct (inb c (takes a r)); [reflexivity|]. apply GO. }
  assert (KEEP : forall c, hown A s c <> OAlloc -> o2 c = hown A s c).
  { intros c N. unfold o2. rewrite !oset_out; [reflexivity| |]; intros J; apply N; rewrite GO; apply TK; apply in_or_app; auto. }
  assert (NEW : forall c, hown A s c = OAlloc -> o2 c = OAlloc \/ exists ro, o2 c = OUse ro false t).
  { intros c N. unfold o2, oset. destruct (inb c (heads a r)); [eauto|]. destruct (inb c (takes a r)); [eauto|]. auto. }
  assert (NU : forall u, ~ In WUnl (hbuf A s u)) by (intros u J; apply (i_unl _ _ _ _ I) in J; discriminate).
  assert (OR : forall u, inorder o2 u (hbuf A s u)).
  { intros u. apply (inorder_ext (hown A s)); [apply I| |].
    - intros c x _ K. rewrite KEEP; [exact K|]. intros E. rewrite E in K. discriminate.
    - intros u' l c ro _ _ E. exists ro. rewrite KEEP; [exact E|]. congruence. }
  exists (mkQ A (snd (prun (P a) (qm A q))) o1 (fupd (qc A q) t (SRet A r))). constructor; cbn -[o1 o2].
  - apply (story_one s q (XHold t) v); [exact I|]. cbn [tell]. rewrite QS. fold o. fold o1. rewrite G1, Z.eqb_refl.
    replace (forallb _ _) with true; [reflexivity|]. symmetry. apply forallb_forall. intros c J. apply alloc_spec. apply TK. exact J.
  - intros u. destruct (Nat.eq_dec u t) as [->|D]; [rewrite !fupd_same; reflexivity|]. rewrite !fupd_other by exact D. apply I.
  - rewrite (i_word _ _ _ _ I). reflexivity.
  - intros u a' p. destruct (Nat.eq_dec u t) as [->|D]; [rewrite fupd_same; discriminate|]. rewrite fupd_other by exact D. intros X.
    apply (i_in _ _ _ _ I) in X. congruence.
  - intros u a' c S J. destruct (Nat.eq_dec u t) as [->|D]; [rewrite fupd_same in S; discriminate|]. rewrite fupd_other in S by exact D.
    destruct (i_gives _ _ _ _ I u a' c S J) as [ro O]. exists ro. rewrite <- OE.
    assert (E : hown A s c = OUse ro false u).
    { rewrite GO. unfold o. rewrite oset_out; [exact O|]. intros K. destruct (i_gives _ _ _ _ I t a c QS K) as [ro' O']. congruence. }
    rewrite KEEP; [exact E|]. congruence.
  - intros u. split.
    + intros J. apply in_push in J. destruct J as [J|[-> _]]; [destruct (NU u J)|reflexivity].
    + intros E. injection E as <-. rewrite fupd_same. apply in_or_app. right. left. reflexivity.
  - intros u. destruct (Nat.eq_dec u t) as [->|D]; [rewrite fupd_same; apply inorder_unl; auto|]. rewrite fupd_other by exact D. apply OR.
  - intros u c x J. apply in_push in J. destruct J as [J|[_ J]]; [|discriminate]. pose proof (i_waits _ _ _ _ I u c x J) as W.
    destruct (hown A s c) as [|ro w u'] eqn:O.
    + cbn in W. injection W as <-. destruct (NEW c O) as [E|[ro E]]; rewrite E; cbn; auto.
    + rewrite KEEP by congruence. rewrite O. cbn in W |- *. destruct W as [W1 W2]. split; [exact W1|]. intros R. discriminate (W2 R).
  - intros c. rewrite (i_value _ _ _ _ I c). unfold value. cbn [xthr].
    assert (PU : forall u m, ldc (fupd (hbuf A s) t (hbuf A s t ++ [WUnl]) u) c m = ldc (hbuf A s u) c m) by (intros u m; apply ldc_push; discriminate).
    destruct (hown A s c) as [|ro w u'] eqn:O.
    + destruct (NEW c O) as [E|[ro E]]; rewrite E, PU; reflexivity.
    + rewrite KEEP by congruence. rewrite O, PU. reflexivity.
  - split; [exact OE|]. intros c. symmetry. apply G2.
Qed.

Lemma hi_ret s q ct v t r : HI s q ct v -> hp A s t = HDone A r -> exists q', HI (see A (set_hp A s t (HOut A)) (HvRet A t r)) q' ct v.
Proof using.
  intros I H. assert (QS : qc A q t = SRet A r) by (rewrite (i_stat _ _ _ _ I), H; reflexivity).
  exists (mkQ A (qm A q) (qo A q) (fupd (qc A q) t (SOut A))). constructor; cbn; try apply I.
  - apply (story_one s q ct v); [exact I|]. cbn. rewrite QS, Z.eqb_refl. reflexivity.
  - intros u. destruct (Nat.eq_dec u t) as [->|D]; [rewrite !fupd_same; reflexivity|]. rewrite !fupd_other by exact D. apply I.
  - intros u a p. destruct (Nat.eq_dec u t) as [->|D]; [rewrite fupd_same; discriminate|]. rewrite fupd_other by exact D. apply I.
  - intros u a c S. destruct (Nat.eq_dec u t) as [->|D]; [rewrite fupd_same in S; discriminate|]. rewrite fupd_other in S by exact D. exact (i_gives _ _ _ _ I u a c S).
  - pose proof (i_prog _ _ _ _ I) as G. destruct ct as [|u|u]; try exact G. destruct G as (a & p & G0 & G). exists a, p. split; [|exact G].
    rewrite fupd_other; [exact G0|]. intros ->. congruence.
Qed.

Lemma hi_call s q ct v t a : HI s q ct v -> hp A s t = HOut A -> forallb (fun c => has t (hown A s c)) (gives a) = true ->
  exists q', HI (see A (set_hp A s t (HSwap A a)) (HvCall A t a)) q' ct v.
Proof using.
  intros I H HG. assert (QS : qc A q t = SOut A) by (rewrite (i_stat _ _ _ _ I), H; reflexivity). apply (use_has s q ct v) in HG; [|exact I].
  exists (mkQ A (qm A q) (qo A q) (fupd (qc A q) t (SIn A a))). constructor; cbn; try apply I.
  - apply (story_one s q ct v); [exact I|]. cbn. rewrite QS, HG. reflexivity.
  - intros u. destruct (Nat.eq_dec u t) as [->|D]; [rewrite !fupd_same; reflexivity|]. rewrite !fupd_other by exact D. apply I.
  - intros u a' p. destruct (Nat.eq_dec u t) as [->|D]; [rewrite fupd_same; discriminate|]. rewrite fupd_other by exact D. apply I.
  - intros u a' c S J. destruct (Nat.eq_dec u t) as [->|D].
    + rewrite fupd_same in S. injection S as <-. rewrite forallb_forall in HG. apply has_spec. exact (HG c J).
    + rewrite fupd_other in S by exact D. exact (i_gives _ _ _ _ I u a' c S J).
  - pose proof (i_prog _ _ _ _ I) as G. destruct ct as [|u|u]; try exact G. destruct G as (a' & p & G0 & G). exists a', p. split; [|exact G].
    rewrite fupd_other; [exact G0|]. intros ->. congruence.
Qed.

Lemma hi_read s q ct v t c : HI s q ct v -> hp A s t = HOut A -> has t (hown A s c) = true ->
  HI (see A s (HvRd A t c (ldc (hbuf A s t) c (hm A s c)))) q ct v.
Proof using.
  intros I H O. apply has_spec in O. destruct O as [ro O]. constructor; cbn; try apply I.
  apply (story_one s q ct v); [exact I|]. cbn. rewrite (i_stat _ _ _ _ I), H. cbn. rewrite (own_use _ _ _ _ _ _ _ _ I O). cbn. rewrite Nat.eqb_refl.
  rewrite <- (val_use _ _ _ _ c I ltac:(congruence)), (i_value _ _ _ _ I c). unfold value. rewrite O, Z.eqb_refl. reflexivity.
Qed.

Lemma hi_write s q ct v t c x : HI s q ct v -> hp A s t = HOut A -> has_rw t (hown A s c) = true ->
  exists q', HI (see A (push A s t (WData c x)) (HvWr A t c x)) q' ct (cset v c x).
Proof using RA.
  intros I H O. apply has_rw_spec in O. pose proof (own_use _ _ _ _ _ _ _ _ I O) as QO.
  exists (mkQ A (fun y => if y =? c then x else qm A q y) (qo A q) (qc A q)). constructor; cbn; try apply I.
  - apply (story_one s q ct v); [exact I|]. cbn. rewrite (i_stat _ _ _ _ I), H. cbn. rewrite QO. cbn. rewrite Nat.eqb_refl. reflexivity.
  - intros u. split; [|intros E; apply (i_unl _ _ _ _ I) in E; destruct (Nat.eq_dec u t) as [->|D]; [rewrite fupd_same; apply in_or_app; auto|rewrite fupd_other by exact D; exact E]].
    intros J. apply in_push in J. destruct J as [J|[_ J]]; [apply I; exact J|discriminate].
  - intros u. destruct (Nat.eq_dec u t) as [->|D]; [|rewrite fupd_other by exact D; apply I]. rewrite fupd_same.
    apply inorder_data; [apply I|intros _; rewrite O; reflexivity|intros ro; rewrite O; discriminate].
  - intros u y z J. apply in_push in J. destruct J as [J|[-> J]]; [exact (i_waits _ _ _ _ I u y z J)|]. injection J as -> _. rewrite O. cbn. split; [reflexivity|discriminate].
  - intros y. unfold cset. destruct (Z.eqb_spec y c) as [->|N].
    + unfold value. rewrite O, fupd_same, ldc_app. cbn. rewrite Z.eqb_refl. reflexivity.
    + rewrite (i_value _ _ _ _ I y). symmetry. apply value_ext; try reflexivity. intros u. apply ldc_push. intros z E. injection E as E _. congruence.
  - pose proof (i_prog _ _ _ _ I) as G. destruct ct as [|u|u].
    + destruct G as [GO GV]. split; [exact GO|]. intros y. unfold cset. destruct (y =? c); [reflexivity|apply GV].
    + destruct G as (a & p & G0 & GO & SF & G1 & G2 & G3). exists a, p. split; [exact G0|]. split; [exact GO|].
      assert (QS : qc A q u = SIn A a) by (rewrite (i_stat _ _ _ _ I), G0; reflexivity).
      destruct (RA _ _ u a (i_story _ _ _ _ I) QS) as [SP _].
      assert (K : kind (hown A s c) = Some false) by (rewrite O; reflexivity). pose proof K as K'. rewrite GO in K'.
      destruct (frame p _ v c x SF K) as (F1 & F2 & F3). destruct (frame (P a) _ (qm A q) c x SP K') as (_ & E2 & E3). unfold cset in E2, E3 at 1.
      split; [exact F1|]. split; [rewrite E2, F2; exact G1|]. split.
      * intros y. rewrite E3, F3. unfold cset. destruct (y =? c); [reflexivity|apply G2].
      * intros y N. unfold cset. destruct (y =? c); [reflexivity|exact (G3 y N)].
    + destruct G as [GO GV]. split; [exact GO|]. intros y. unfold cset. destruct (y =? c); [reflexivity|apply GV].
Qed.

Lemma osend_kind o l c : kind (osend o l c) = kind (o c).
Proof using. unfold osend. destruct (inb c l); [|reflexivity]. destruct (o c); reflexivity. Qed.
Lemma osend_out o l c : ~ In c l -> osend o l c = o c.
Proof using. intros H. unfold osend. rewrite (inb_out c l H). reflexivity. Qed.
Lemma osend_in o l c ro w t : In c l -> o c = OUse ro w t -> osend o l c = OUse ro true t.
Proof using. intros H E. unfold osend. rewrite (proj2 (inb_in c l) H), E. reflexivity. Qed.
Lemma ogot_kind o l u c : kind (ogot o l u c) = kind (o c).
Proof using. unfold ogot. destruct (inb c l); [|reflexivity]. destruct (o c); reflexivity. Qed.
Lemma ogot_out o l u c : ~ In c l -> ogot o l u c = o c.
Proof using. intros H. unfold ogot. rewrite (inb_out c l H). reflexivity. Qed.
Lemma ogot_in o l u c ro w t : In c l -> o c = OUse ro w t -> ogot o l u c = OUse ro false u.
Proof using. intros H E. unfold ogot. rewrite (proj2 (inb_in c l) H), E. reflexivity. Qed.

(** The owners change outside the bodies. *)
Lemma prog_own s q ct v o o' : HI s q ct v -> (forall c, kind (o c) = kind (hown A s c)) ->
  (forall a, (forall c, hown A s c = oset (qo A q) (gives a) OAlloc c) -> forall c, o c = oset o' (gives a) OAlloc c) ->
  ((forall c, hown A s c = qo A q c) -> forall c, o c = o' c) ->
  match ct with
  | XHold t => exists a p, hp A s t = HIn A a p /\ (forall c, o c = oset o' (gives a) OAlloc c) /\ safe o p v /\
      fst (prun (P a) (qm A q)) = fst (prun p v) /\ (forall c, snd (prun (P a) (qm A q)) c = snd (prun p v) c) /\ forall c, o c <> OAlloc -> v c = qm A q c
  | _ => (forall c, o c = o' c) /\ forall c, v c = qm A q c
  end.
Proof using.
  intros I K E1 E2. pose proof (i_prog _ _ _ _ I) as G. destruct ct as [|u|u].
  - split; [apply E2|]; apply G.
  - destruct G as (a & p & G0 & GO & SF & G1 & G2 & G3). exists a, p. split; [exact G0|]. split; [exact (E1 a GO)|].
    split; [exact (safe_ext p (hown A s) o v v (fun c => eq_sym (K c)) (fun _ => eq_refl) SF)|]. split; [exact G1|]. split; [exact G2|].
    intros c N. apply G3. intros E. apply N. pose proof (K c) as X. rewrite E in X. destruct (o c); [reflexivity|discriminate].
  - split; [apply E2|]; apply G.
Qed.

Lemma hi_send s q ct v t u l : HI s q ct v -> hp A s t = HOut A -> forallb (fun c => has t (hown A s c)) l = true ->
  exists q', HI (see A (set_own A (push A s t (WHand u l)) (osend (hown A s) l)) (HvSend A t u l)) q' ct v.
Proof using.
  intros I H HG. pose proof (use_has s q ct v t l I HG) as HQ. assert (QS : qc A q t = SOut A) by (rewrite (i_stat _ _ _ _ I), H; reflexivity).
  assert (HL : forall c, In c l -> exists ro, hown A s c = OUse ro false t) by (intros c J; rewrite forallb_forall in HG; apply has_spec; exact (HG c J)).
  assert (HLQ : forall c, In c l -> exists ro, qo A q c = OUse ro false t) by (intros c J; rewrite forallb_forall in HQ; apply has_spec; exact (HQ c J)).
  assert (OR : forall w, inorder (osend (hown A s) l) w (hbuf A s w)).
  { intros w. apply (inorder_ext (hown A s)); [apply I| |].
    - intros c x _ K. rewrite osend_kind. exact K.
    - intros u' l' c ro _ _ E. exists ro. rewrite osend_out; [exact E|]. intros J. destruct (HL c J) as [ro' E']. congruence. }
  exists (mkQ A (qm A q) (osend (qo A q) l) (qc A q)). constructor; cbn; try apply I.
  - apply (story_one s q ct v); [exact I|]. cbn. rewrite QS, HQ. reflexivity.
  - intros w a c S J. destruct (i_gives _ _ _ _ I w a c S J) as [ro O]. exists ro. rewrite osend_out; [exact O|]. intros K.
    destruct (HLQ c K) as [ro' E']. assert (w = t) by congruence. subst w. congruence.
  - intros w. split; [|intros E; apply (i_unl _ _ _ _ I) in E; destruct (Nat.eq_dec w t) as [->|D]; [rewrite fupd_same; apply in_or_app; auto|rewrite fupd_other by exact D; exact E]].
    intros J. apply in_push in J. destruct J as [J|[_ J]]; [apply I; exact J|discriminate].
  - intros w. destruct (Nat.eq_dec w t) as [->|D]; [|rewrite fupd_other by exact D; apply OR]. rewrite fupd_same. apply inorder_hand; [apply OR| |].
    + intros c J. destruct (HL c J) as [ro E]. exists ro. exact (osend_in _ _ _ _ _ _ J E).
    + intros u' l' c J K K'. destruct (hand_way _ _ _ _ _ c (i_order _ _ _ _ I t) J K) as [ro E]. destruct (HL c K') as [ro' E']. congruence.
  - intros w c x J. apply in_push in J. destruct J as [J|[_ J]]; [|discriminate]. pose proof (i_waits _ _ _ _ I w c x J) as W.
    destruct (in_dec_z c l) as [K|K]; [|rewrite osend_out by exact K; exact W]. destruct (HL c K) as [ro E]. rewrite (osend_in _ _ _ _ _ _ K E). rewrite E in W. exact W.
  - intros c. rewrite (i_value _ _ _ _ I c). unfold value.
    assert (PU : forall w m, ldc (fupd (hbuf A s) t (hbuf A s t ++ [WHand u l]) w) c m = ldc (hbuf A s w) c m) by (intros w m; apply ldc_push; discriminate).
    destruct (in_dec_z c l) as [K|K].
    + destruct (HL c K) as [ro E]. rewrite (osend_in _ _ _ _ _ _ K E), E, PU. reflexivity.
    + rewrite osend_out by exact K. destruct (hown A s c); [destruct (xthr ct); [rewrite PU|]; reflexivity|rewrite PU; reflexivity].
  - apply (prog_own s q ct v (osend (hown A s) l) (osend (qo A q) l) I).
    + intros c. apply osend_kind.
    + intros a GO c. unfold osend. rewrite GO. unfold oset. destruct (inb c (gives a)); [destruct (inb c l); reflexivity|reflexivity].
    + intros GO c. unfold osend. rewrite GO. reflexivity.
Qed.

Lemma hi_flush_data s q ct v t c x r : HI s q ct v -> hbuf A s t = WData c x :: r ->
  HI (mkH A (hw A s) (cset (hm A s) c x) (fupd (hbuf A s) t r) (hp A s) (hown A s) (htr A s)) q ct v.
Proof using.
  intros I B. constructor; cbn; try apply I.
  - intros u. rewrite <- (i_unl _ _ _ _ I u). destruct (Nat.eq_dec u t) as [->|D]; [|rewrite fupd_other by exact D; reflexivity]. rewrite fupd_same, B. cbn.
    split; [auto|intros [E|J]; [discriminate|exact J]].
  - intros u. destruct (Nat.eq_dec u t) as [->|D]; [|rewrite fupd_other by exact D; apply I]. rewrite fupd_same. pose proof (i_order _ _ _ _ I t) as O. rewrite B in O. exact O.
  - intros u y z J. apply (i_waits _ _ _ _ I u y z). destruct (Nat.eq_dec u t) as [->|D]; [|rewrite fupd_other in J by exact D; exact J].
    rewrite fupd_same in J. rewrite B. right. exact J.
  - intros y. rewrite (i_value _ _ _ _ I y). unfold value.
    destruct (Z.eq_dec y c) as [->|N].
    + assert (W : waits ct t (hown A s c)) by (apply (i_waits _ _ _ _ I t c x); rewrite B; left; reflexivity).
      assert (E : ldc (fupd (hbuf A s) t r t) c (cset (hm A s) c x c) = ldc (hbuf A s t) c (hm A s c)).
      { rewrite fupd_same, B. cbn. unfold cset. rewrite !Z.eqb_refl. reflexivity. }
      destruct (hown A s c) as [|ro w u]; cbn in W; [rewrite W|destruct W as [-> _]]; symmetry; exact E.
    + assert (E : forall u, ldc (fupd (hbuf A s) t r u) y (cset (hm A s) c x y) = ldc (hbuf A s u) y (hm A s y)).
      { intros u. unfold cset. rewrite (proj2 (Z.eqb_neq y c) N). destruct (Nat.eq_dec u t) as [->|D]; [|rewrite fupd_other by exact D; reflexivity].
        rewrite fupd_same, B. cbn. rewrite (proj2 (Z.eqb_neq c y)) by congruence. reflexivity. }
      destruct (hown A s y); [destruct (xthr ct)|]; try (symmetry; apply E). unfold cset. rewrite (proj2 (Z.eqb_neq y c) N). reflexivity.
Qed.

Lemma hi_flush_unl s q ct v t r : HI s q ct v -> hbuf A s t = WUnl :: r ->
  HI (mkH A 0 (hm A s) (fupd (hbuf A s) t r) (hp A s) (hown A s) (htr A s)) q XNone v.
Proof using.
  intros I B. assert (C : ct = XLeave t) by (apply (i_unl _ _ _ _ I); rewrite B; left; reflexivity). subst ct.
  pose proof (i_order _ _ _ _ I t) as O. rewrite B in O. cbn in O. destruct O as (O1 & O2 & O3).
  constructor; cbn; try apply I.
  - reflexivity.
  - intros u a p X. apply (i_in _ _ _ _ I) in X. discriminate.
  - intros u. split; [|discriminate]. intros J. destruct (Nat.eq_dec u t) as [->|D]; [rewrite fupd_same in J; tauto|]. rewrite fupd_other in J by exact D.
    apply (i_unl _ _ _ _ I) in J. congruence.
  - intros u. destruct (Nat.eq_dec u t) as [->|D]; [rewrite fupd_same; exact O3|rewrite fupd_other by exact D; apply I].
  - intros u c x J. destruct (Nat.eq_dec u t) as [->|D].
    + rewrite fupd_same in J. pose proof (O2 c x J) as K. assert (W : waits (XLeave t) t (hown A s c)) by (apply (i_waits _ _ _ _ I t c x); rewrite B; right; exact J).
      destruct (hown A s c) as [|[] w u']; cbn in K; try discriminate. cbn in W |- *. split; [tauto|discriminate].
    + rewrite fupd_other in J by exact D. pose proof (i_waits _ _ _ _ I u c x J) as W. destruct (hown A s c) as [|ro w u']; cbn in W |- *; [congruence|].
      destruct W as [W1 W2]. split; [exact W1|]. intros R. specialize (W2 R). congruence.
  - intros c. rewrite (i_value _ _ _ _ I c). unfold value. cbn [xthr]. destruct (hown A s c) as [|ro w u] eqn:O.
    + rewrite B. cbn. apply ldc_none. intros x J. specialize (O2 c x J). rewrite O in O2. discriminate.
    + destruct (Nat.eq_dec u t) as [->|D]; [rewrite fupd_same, B; reflexivity|rewrite fupd_other by exact D; reflexivity].
Qed.

Lemma hi_flush_hand s q ct v t u l r : HI s q ct v -> hbuf A s t = WHand u l :: r ->
  exists q', HI (mkH A (hw A s) (hm A s) (fupd (hbuf A s) t r) (hp A s) (ogot (hown A s) l u) (htr A s ++ [HvGot A u l])) q' ct v.
Proof using.
  intros I B. pose proof (i_order _ _ _ _ I t) as O. rewrite B in O. cbn in O. destruct O as [O1 O2].
  assert (HQ : forall c, In c l -> exists ro, qo A q c = OUse ro true t).
  { intros c J. destruct (O1 c J) as ((ro & E) & _). exists ro. exact (own_use _ _ _ _ _ _ _ _ I E). }
  assert (ND : forall w c, In c l -> no_data (fupd (hbuf A s) t r w) c).
  { intros w c J x K. destruct (O1 c J) as ((ro & E) & N & _). destruct (Nat.eq_dec w t) as [->|D]; [rewrite fupd_same in K; exact (N x K)|].
    rewrite fupd_other in K by exact D. pose proof (i_waits _ _ _ _ I w c x K) as W. rewrite E in W. cbn in W. destruct W. congruence. }
  exists (mkQ A (qm A q) (ogot (qo A q) l u) (qc A q)). constructor; cbn; try apply I.
  - apply (story_one s q ct v); [exact I|]. cbn. replace (forallb _ l) with true; [reflexivity|]. symmetry. apply forallb_forall. intros c J. apply way_spec.
    destruct (HQ c J) as [ro E]. eauto.
  - intros w a c S J. destruct (i_gives _ _ _ _ I w a c S J) as [ro E]. exists ro. rewrite ogot_out; [exact E|]. intros K. destruct (HQ c K) as [ro' E']. congruence.
  - intros w. rewrite <- (i_unl _ _ _ _ I w). destruct (Nat.eq_dec w t) as [->|D]; [|rewrite fupd_other by exact D; reflexivity]. rewrite fupd_same, B. cbn.
    split; [auto|intros [E|J]; [discriminate|exact J]].
  - intros w. destruct (Nat.eq_dec w t) as [->|D].
    + rewrite fupd_same. apply (inorder_ext (hown A s)); [exact O2|intros c x _ K; rewrite ogot_kind; exact K|].
      intros u' l' c ro J K E. exists ro. rewrite ogot_out; [exact E|]. intros K'. destruct (O1 c K') as (_ & _ & N). exact (N u' l' J K).
    + rewrite fupd_other by exact D. apply (inorder_ext (hown A s)); [apply I|intros c x _ K; rewrite ogot_kind; exact K|].
      intros u' l' c ro J K E. exists ro. rewrite ogot_out; [exact E|]. intros K'. destruct (O1 c K') as ((ro' & E') & _). congruence.
  - intros w c x J. destruct (in_dec_z c l) as [K|K]; [destruct (ND w c K x J)|]. rewrite ogot_out by exact K. apply (i_waits _ _ _ _ I w c x).
    destruct (Nat.eq_dec w t) as [->|D]; [rewrite fupd_same in J; rewrite B; right; exact J|rewrite fupd_other in J by exact D; exact J].
  - intros c. rewrite (i_value _ _ _ _ I c). unfold value.
    assert (PU : forall w m, ldc (hbuf A s w) c m = ldc (fupd (hbuf A s) t r w) c m).
    { intros w m. destruct (Nat.eq_dec w t) as [->|D]; [rewrite fupd_same, B; reflexivity|rewrite fupd_other by exact D; reflexivity]. }
    destruct (in_dec_z c l) as [K|K].
    + destruct (O1 c K) as ((ro & E) & _). rewrite (ogot_in _ _ u _ _ _ _ K E), E, PU, !ldc_none by (apply ND; exact K). reflexivity.
    + rewrite ogot_out by exact K. destruct (hown A s c); [destruct (xthr ct); [rewrite PU|]; reflexivity|rewrite PU; reflexivity].
  - apply (prog_own s q ct v (ogot (hown A s) l u) (ogot (qo A q) l u) I).
    + intros c. apply ogot_kind.
    + intros a GO c. unfold ogot. rewrite GO. unfold oset. destruct (inb c (gives a)); [destruct (inb c l); reflexivity|reflexivity].
    + intros GO c. unfold ogot. rewrite GO. reflexivity.
Qed.

Lemma hi_step s q ct v x s' : HI s q ct v -> hstep s x = Some s' -> exists q' ct' v', HI s' q' ct' v'.
Proof using RA.
  intros I E. destruct x as [t a|t|t c|t c x|t u l|t i]; cbn [HeapTsoModel.hstep] in E.
  - destruct (hp A s t) eqn:H; try discriminate. destruct (forallb _ _) eqn:F; [|discriminate]. injection E as <-.
    destruct (hi_call s q ct v t a I H F) as [q' I']. eauto.
  - unfold hgo in E. destruct (hp A s t) as [|a|a|a p|r] eqn:H; try discriminate.
    + destruct (hbuf A s t) eqn:B; [|discriminate]. pose proof (i_word _ _ _ _ I) as W. destruct (Z.eqb_spec (hw A s) 0) as [Z0|Z0]; injection E as <-.
      * assert (ct = XNone) by (destruct ct; [reflexivity|congruence|congruence]). subst ct. exists q, (XHold t), v. exact (hi_take s q v t a I B H).
      * assert (W1 : hw A s = 1) by (destruct ct; [congruence|exact W|exact W]). exists q, ct, v.
        pose proof (hi_move s q ct v t (HSpin A a) I ltac:(rewrite H; reflexivity) ltac:(discriminate) ltac:(rewrite H; discriminate)) as X.
        unfold set_hp in X. rewrite W1 in X. exact X.
    + injection E as <-. exists q, ct, v. apply hi_move; [exact I|rewrite H; destruct (_ =? 0); reflexivity|destruct (_ =? 0); discriminate|rewrite H; discriminate].
    + pose proof (i_in _ _ _ _ I t a p H) as ->. destruct p as [r|c k|c x k]; injection E as <-.
      * destruct (hi_unlock s q v t a r I H) as [q' I']. eauto.
      * rewrite (body_load s q v t a c k I H). exists q, (XHold t), v. exact (hi_load s q v t a c k I H).
      * exists q, (XHold t), (cset v c x). exact (hi_store s q v t a c x k I H).
    + injection E as <-. destruct (hi_ret s q ct v t r I H) as [q' I']. eauto.
  - destruct (hp A s t) eqn:H; try discriminate. destruct (has _ _) eqn:F; [|discriminate]. injection E as <-. exists q, ct, v. exact (hi_read s q ct v t c I H F).
  - destruct (hp A s t) eqn:H; try discriminate. destruct (has_rw _ _) eqn:F; [|discriminate]. injection E as <-.
    destruct (hi_write s q ct v t c x I H F) as [q' I']. eauto.
  - destruct (hp A s t) eqn:H; try discriminate. destruct (forallb _ _) eqn:F; [|discriminate]. injection E as <-.
    destruct (hi_send s q ct v t u l I H F) as [q' I']. eauto.
  - unfold hflush in E. destruct (nth_error (hbuf A s t) i) as [x|] eqn:Nx; [|discriminate]. destruct (Nat.eqb_spec i 0) as [->|]; [|discriminate].
    destruct (hbuf A s t) as [|y r] eqn:B; [discriminate|]. cbn in Nx. injection Nx as ->. cbn [firstn skipn app] in E. injection E as <-.
    destruct x as [c x| |u l].
    + exists q, ct, v. exact (hi_flush_data s q ct v t c x r I B).
    + exists q, XNone, v. exact (hi_flush_unl s q ct v t r I B).
    + destruct (hi_flush_hand s q ct v t u l r I B) as [q' I']. eauto.
Qed.
Lemma hi_exec s l s' : hexec A P gives takes heads true s l s' -> forall q ct v, HI s q ct v -> exists q' ct' v', HI s' q' ct' v'.
Proof using RA.
  intros H. induction H as [s|s x s1 l s2 E X IH]; intros q ct v I; [eauto|].
  destruct (hi_step s q ct v x s1 I E) as (q' & ct' & v' & I'). exact (IH q' ct' v' I').
Qed.
Lemma hi_reach s : hreach A P gives takes heads true mi oi s -> exists q ct v, HI s q ct v.
Proof using RA. intros [l X]. exact (hi_exec _ _ _ X _ _ _ hi_start). Qed.

Lemma heap_story s : hreach A P gives takes heads true mi oi s ->
  exists q, story (q0 A mi oi) (htr A s) = Some q /\ forall t, qc A q t = SOut A <-> hp A s t = HOut A.
Proof using RA.
  intros R. destruct (hi_reach s R) as (q & ct & v & I). exists q. split; [apply I|]. intros t. rewrite (i_stat _ _ _ _ I).
  destruct (hp A s t); cbn; split; congruence.
Qed.
Lemma heap_memory s : hreach A P gives takes heads true mi oi s -> (forall t, hbuf A s t = []) -> (forall t a p, hp A s t <> HIn A a p) ->
  exists q, story (q0 A mi oi) (htr A s) = Some q /\ (forall c, hm A s c = qm A q c) /\ forall c, hown A s c = qo A q c.
Proof using RA.
  intros R B N. destruct (hi_reach s R) as (q & ct & v & I). exists q. split; [apply I|].
  assert (G : (forall c, hown A s c = qo A q c) /\ forall c, v c = qm A q c).
  { pose proof (i_prog _ _ _ _ I) as G. destruct ct as [|u|u]; [exact G| |exact G]. destruct G as (a & p & G & _). destruct (N u a p G). }
  split; [|apply G]. intros c. rewrite <- (proj2 G), (i_value _ _ _ _ I c). unfold value. destruct (hown A s c); [destruct (xthr ct)|]; try rewrite B; reflexivity.
Qed.
Lemma heap_mutex s t u a b p r : hreach A P gives takes heads true mi oi s -> hp A s t = HIn A a p -> hp A s u = HIn A b r -> t = u.
Proof using RA. intros R H H'. destruct (hi_reach s R) as (q & ct & v & I). apply (i_in _ _ _ _ I) in H, H'. congruence. Qed.

Lemma hexec_app s l s1 k s2 : hexec A P gives takes heads true s l s1 -> hexec A P gives takes heads true s1 k s2 -> hexec A P gives takes heads true s (l ++ k) s2.
Proof using. clear RA. intros H. induction H; cbn; auto. intros X. econstructor; eauto. Qed.
Lemma drain b : forall s t, hbuf A s t = b -> exists s', hexec A P gives takes heads true s (repeat (AFlush A t 0) (length b)) s' /\ hbuf A s' t = [] /\
  hp A s' = hp A s /\ forall u, u <> t -> hbuf A s' u = hbuf A s u.
Proof using.
  clear RA. induction b as [|x b IH]; intros s t E; [exists s; split; [constructor|auto]|].
  assert (X : exists s1, hstep s (AFlush A t 0) = Some s1 /\ hbuf A s1 = fupd (hbuf A s) t b /\ hp A s1 = hp A s).
  { cbn [HeapTsoModel.hstep]. unfold hflush. rewrite E. cbn. destruct x; eexists; split; reflexivity || (split; reflexivity). }
  destruct X as (s1 & S1 & B1 & P1). destruct (IH s1 t) as (s' & X & F1 & F2 & F3); [rewrite B1; apply fupd_same|].
  exists s'. split; [cbn; econstructor; [exact S1|exact X]|]. split; [exact F1|]. split; [congruence|].
  intros u D. rewrite (F3 u D), B1. apply fupd_other. exact D.
Qed.
Lemma heap_taken s t a : hreach A P gives takes heads true mi oi s -> (forall u b p, hp A s u <> HIn A b p) -> hp A s t = HSwap A a \/ hp A s t = HSpin A a ->
  exists u n m k s', (k <= 2)%nat /\ hexec A P gives takes heads true s (repeat (AFlush A u 0) n ++ repeat (AFlush A t 0) m ++ repeat (AGo A t) k) s' /\
    hp A s' t = HIn A a (P a).
Proof using RA.
  intros R N H. destruct (hi_reach s R) as (q & ct & v & I).
  assert (X : exists u n s1, hexec A P gives takes heads true s (repeat (AFlush A u 0) n) s1 /\ hp A s1 = hp A s /\ forall w, ~ In WUnl (hbuf A s1 w)).
  { destruct ct as [|u|u].
    - exists O, O, s. split; [constructor|]. split; [reflexivity|]. intros w J. apply (i_unl _ _ _ _ I) in J. discriminate.
    - pose proof (i_prog _ _ _ _ I) as (b & p & G & _). destruct (N u b p G).
    - destruct (drain _ s u eq_refl) as (s1 & X & B & P1 & O). exists u, (length (hbuf A s u)), s1. split; [exact X|]. split; [exact P1|].
      intros w J. destruct (Nat.eq_dec w u) as [->|D]; [rewrite B in J; destruct J|]. rewrite (O w D) in J. apply (i_unl _ _ _ _ I) in J. congruence. }
  destruct X as (u & n & s1 & X1 & P1 & U1). destruct (drain _ s1 t eq_refl) as (s2 & X2 & B2 & P2 & O2).
  pose proof (hexec_app _ _ _ _ _ X1 X2) as X12.
  assert (R2 : hreach A P gives takes heads true mi oi s2) by (destruct R as [l X]; eexists; exact (hexec_app _ _ _ _ _ X X12)).
  destruct (hi_reach s2 R2) as (q2 & ct2 & v2 & I2).
  assert (W2 : hw A s2 = 0).
  { rewrite (i_word _ _ _ _ I2). destruct ct2 as [|w|w]; [reflexivity| |].
    - pose proof (i_prog _ _ _ _ I2) as (b & p & G & _). rewrite P2, P1 in G. destruct (N w b p G).
    - pose proof (proj2 (i_unl _ _ _ _ I2 w) eq_refl) as J. destruct (Nat.eq_dec w t) as [->|D]; [rewrite B2 in J; destruct J|]. rewrite (O2 w D) in J. destruct (U1 w J). }
  assert (G : forall s3, hw A s3 = 0 -> hbuf A s3 t = [] -> hp A s3 t = HSwap A a -> exists s', hexec A P gives takes heads true s3 [AGo A t] s' /\ hp A s' t = HIn A a (P a)).
  { intros s3 W B H3. eexists. split; [econstructor; [|constructor]|].
    - cbn [HeapTsoModel.hstep]. unfold hgo. rewrite H3, B, W. reflexivity.
    - cbn. apply fupd_same. }
  exists u, n, (length (hbuf A s1 t)). rewrite <- P1, <- P2 in H. destruct H as [H|H].
  - destruct (G s2 W2 B2 H) as (s' & X3 & H3). exists 1%nat, s'. split; [lia|]. split; [|exact H3]. rewrite app_assoc. exact (hexec_app _ _ _ _ _ X12 X3).
  - set (s3 := set_hp A s2 t (HSwap A a)). destruct (G s3 W2 B2 (fupd_same _ _ _ _)) as (s' & X3 & H3). exists 2%nat, s'. split; [lia|]. split; [|exact H3].
    rewrite app_assoc. apply (hexec_app _ _ _ _ _ X12). cbn. econstructor; [|exact X3]. cbn [HeapTsoModel.hstep]. unfold hgo. rewrite H, B2. cbn. rewrite W2. reflexivity.
Qed.
End Heap.
