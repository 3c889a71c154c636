(** The locks in a child process. *)
From Verif Require Import OrderSpec OrderModel OrderProofs ForkSpec.
From Coq Require Import List Bool Arith Lia.
Import ListNotations.
Local Open Scope prog_scope.

Local Notation child := (child lk).
Local Notation gos c := (goes_star lk lk_eqb c).

(** ** Forks at quiet times *)
Lemma child_held : forall s h, held_ok s h -> (forall t, todo s t = []) -> held_ok (child s) (fun _ => []).
Proof.
  intros s h (A & B & C & n & D) Z. unfold ForkSpec.child. split; [|split; [|split]]; cbn [todo owner].
  - intros t. constructor.
  - intros t l. split; [|intros []]. intros O. apply B in O. pose proof (A t) as P. rewrite Z in P. apply follows_nil in P.
    rewrite P in O. exact O.
  - intros t. constructor.
  - exists 0. reflexivity.
Qed.
Section Good.
Variables (w : world) (egg : chn).
Hypotheses (MF : map_fails w = false) (FM : flag_moves w = false) (LM : libs_malloc w = false) (E : egg_ok egg).
Notation proc := (process lk lk_eqb (good w egg)).
Lemma quiet_held : forall s, proc (alone lk) s -> exists h, held_ok s h.
Proof using MF FM LM E.
  induction 1 as [|s s' P IH G|s t P IH T Al].
  - exists (fun _ => []). exact held_0.
  - destruct IH as (h & H). exact (held_go w egg MF FM LM E s s' h H G).
  - destruct IH as (h & H). exists (fun _ => []). apply (child_held s h H). intros u.
    destruct (Nat.eq_dec u t) as [->|N]; [exact T|exact (Al u N)].
Qed.
Lemma quiet_moves : forall s t, proc (alone lk) s -> todo s t <> [] -> exists s', mv s s'.
Proof using MF FM LM E. intros s t P N. destruct (quiet_held s P) as (h & H). exact (progress s h t H N). Qed.
Lemma quiet_end : forall s, proc (alone lk) s -> exists s', mvs s s' /\ all_out lk s'.
Proof using MF FM LM E.
  intros s P. destruct (quiet_held s P) as (h & H). pose proof H as (_ & _ & _ & n & D).
  eapply finish; [exact H|]. exists n. split; [exact D|]. apply le_n.
Qed.

(** ** Calls that only take locks free at the fork *)
(** [s] with the locks taken in [s0] shown as free. *)
Definition mask (s0 s : st) : st := mkO (fun l => match owner s0 l with None => owner s l | Some _ => None end) (todo s).
Definition same (a b : st) : Prop := (forall l, owner a l = owner b l) /\ (forall t, todo a t = todo b t).
Lemma same_held : forall a b h, same a b -> held_ok a h -> held_ok b h.
Proof using.
  intros a b h (O & T) (A & B & C & n & D). split; [|split; [|split]].
  - intros t. rewrite <- T. apply A.
  - intros t l. rewrite <- O. apply B.
  - exact C.
  - exists n. intros t L. rewrite <- T. apply D, L.
Qed.
Definition clean (s0 s : st) : Prop := forall t l, In (Take l) (todo s t) \/ In (Give l) (todo s t) -> owner s0 l = None.
Definition kept (s0 s : st) : Prop := forall l, owner s0 l <> None -> owner s l = owner s0 l.
Lemma gives_taken : forall h x e l, follows h x e -> In (Give l) x -> In l h \/ In (Take l) x.
Proof using.
  intros h x e l F. induction F as [h|h k x e K F IH|h k x e F IH]; intros I.
  - destruct I.
  - destruct I as [I|I]; [discriminate I|]. destruct (IH I) as [[->|Y]|Y]; [right; left; reflexivity|left; exact Y|right; right; exact Y].
  - destruct I as [I|I]; [injection I as ->; left; left; reflexivity|]. destruct (IH I) as [Y|Y]; [left; right; exact Y|right; right; exact Y].
Qed.
Lemma tail_clean : forall s0 s t o r f, clean s0 s -> todo s t = o :: r -> clean s0 (mkO f (tdo lk s t r)).
Proof using.
  intros s0 s t o r f K T u l I. cbn [todo] in I. unfold tdo in I. destruct (Nat.eqb_spec u t) as [->|N]; [|exact (K u l I)].
  apply (K t l). rewrite T. destruct I as [I|I]; [left|right]; right; exact I.
Qed.
Lemma clean_move : forall s0 s s', clean s0 s -> kept s0 s -> mv s s' ->
  clean s0 s' /\ kept s0 s' /\ exists m, mv (mask s0 s) m /\ same m (mask s0 s').
Proof using.
  intros s0 s s' K P M. inversion M as [a t l r T O|a t l r T]; subst.
  - assert (Z : owner s0 l = None) by (apply (K t l); rewrite T; left; left; reflexivity).
    split; [exact (tail_clean s0 s t _ r _ K T)|]. split.
    + intros x X. cbn [owner]. unfold own. destruct (lk_eq x l) as [->|N]; [contradiction|]. rewrite (lk_eqb_neq x l N). exact (P x X).
    + eexists. split; [apply (m_take lk lk_eqb (mask s0 s) t l r T); cbn [mask owner]; rewrite Z; exact O|].
      split; [|reflexivity]. intros x. cbn [mask owner]. unfold own. cbn [mask owner]. destruct (lk_eq x l) as [->|N].
      * rewrite lk_eqb_refl, Z. reflexivity.
      * rewrite (lk_eqb_neq x l N). destruct (owner s0 x); reflexivity.
  - assert (Z : owner s0 l = None) by (apply (K t l); rewrite T; right; left; reflexivity).
    split; [exact (tail_clean s0 s t _ r _ K T)|]. split.
    + intros x X. cbn [owner]. unfold own. destruct (lk_eq x l) as [->|N]; [contradiction|]. rewrite (lk_eqb_neq x l N). exact (P x X).
    + eexists. split; [apply (m_give lk lk_eqb (mask s0 s) t l r T)|].
      split; [|reflexivity]. intros x. cbn [mask owner]. unfold own. cbn [mask owner]. destruct (lk_eq x l) as [->|N].
      * rewrite lk_eqb_refl, Z. reflexivity.
      * rewrite (lk_eqb_neq x l N). destruct (owner s0 x); reflexivity.
Qed.
Definition fit (s0 s : st) : Prop := clean s0 s /\ kept s0 s /\ exists h, held_ok (mask s0 s) h.
Lemma fit_move : forall s0 s s', fit s0 s -> mv s s' -> fit s0 s'.
Proof using.
  intros s0 s s' (K & P & h & H) M. destruct (clean_move s0 s s' K P M) as (K1 & P1 & m & Mm & S).
  split; [exact K1|]. split; [exact P1|]. destruct (held_move _ _ h H Mm) as (h1 & H1). exists h1. exact (same_held _ _ _ S H1).
Qed.
Lemma fit_go : forall s0 s s', fit s0 s -> goes lk lk_eqb (spared lk (good w egg) s0) s s' -> fit s0 s'.
Proof using MF FM LM E.
  intros s0 s s' F G. inversion G as [a b M|a t r T (Gr & Fr)]; subst; [exact (fit_move s0 s s' F M)|].
  destruct F as (K & P & h & H). split; [|split].
  - intros u l I. cbn [todo] in I. unfold tdo in I. destruct (Nat.eqb_spec u t) as [->|N]; [|exact (K u l I)].
    destruct I as [I|I]; [exact (Fr l I)|]. pose proof (good_follows w egg MF FM LM E r Gr) as F.
    destruct (gives_taken _ _ _ l F I) as [[]|Y]. exact (Fr l Y).
  - exact P.
  - destruct (held_go w egg MF FM LM E (mask s0 s) (mkO (owner (mask s0 s)) (tdo lk (mask s0 s) t r)) h H) as (h1 & H1).
    + apply g_call; [exact T|exact Gr].
    + exists h1. exact H1.
Qed.
Lemma fit_gos : forall s0 s s', gos (spared lk (good w egg) s0) s s' -> fit s0 s -> fit s0 s'.
Proof using MF FM LM E. induction 1 as [|s s1 s2 G R IH]; intros F; [exact F|]. apply IH. exact (fit_go s0 s s1 F G). Qed.
Lemma fit_child : forall s0, fit s0 (child s0).
Proof using.
  intros s0. split; [intros t l [[]|[]]|]. split; [intros l _; reflexivity|]. exists (fun _ => []).
  split; [intros t; constructor|]. split; [|split; [intros t; constructor|exists 0; reflexivity]].
  intros t l. split; [|intros []]. cbn [mask owner ForkSpec.child]. destruct (owner s0 l); discriminate.
Qed.
(** The masked state goes on: so does the state. *)
Lemma unmask : forall s0 s m, clean s0 s -> mv (mask s0 s) m -> exists s', mv s s'.
Proof using.
  intros s0 s m K M. inversion M as [a t l r T O|a t l r T]; subst; cbn [mask todo] in T.
  - assert (Z : owner s0 l = None) by (apply (K t l); rewrite T; left; left; reflexivity).
    cbn [mask owner] in O. rewrite Z in O. eexists. exact (m_take lk lk_eqb s t l r T O).
  - eexists. exact (m_give lk lk_eqb s t l r T).
Qed.
Lemma fit_progress : forall s0 s t, fit s0 s -> todo s t <> [] -> exists s', mv s s'.
Proof using.
  intros s0 s t (K & P & h & H) N. destruct (progress (mask s0 s) h t H N) as (m & M). exact (unmask s0 s m K M).
Qed.
Lemma fit_finish : forall k s0 s, fit s0 s -> (exists n, (forall t, n <= t -> todo s t = []) /\ left (todo s) n <= k) ->
  exists s', mvs s s' /\ (forall t, todo s' t = []) /\ forall l, owner s' l = owner s0 l.
Proof using.
  assert (Out : forall s0 s, fit s0 s -> (forall t, todo s t = []) -> forall l, owner s l = owner s0 l).
  { intros s0 s (K & P & h & A & B & C) Z l. destruct (owner s0 l) as [u|] eqn:O0; [rewrite <- O0; apply P; congruence|].
    destruct (owner s l) as [t|] eqn:O; [|reflexivity]. exfalso.
    assert (I : In l (h t)) by (apply B; cbn [mask owner]; rewrite O0; exact O).
    pose proof (A t) as F. cbn [mask todo] in F. rewrite Z in F. apply follows_nil in F. rewrite F in I. destruct I. }
  induction k as [|k IH]; intros s0 s F (n & D & L).
  - destruct (some_left (todo s) n D) as [Z|(t & N)]; [exists s; split; [constructor|split; [exact Z|exact (Out s0 s F Z)]]|].
    destruct (fit_progress s0 s t F N) as (s1 & M). pose proof (left_move s s1 n D M). lia.
  - destruct (some_left (todo s) n D) as [Z|(t & N)]; [exists s; split; [constructor|split; [exact Z|exact (Out s0 s F Z)]]|].
    destruct (fit_progress s0 s t F N) as (s1 & M). pose proof (left_move s s1 n D M) as LL. pose proof (fit_move s0 s s1 F M) as F1.
    assert (D1 : forall t, n <= t -> todo s1 t = []).
    { intros x Lx. inversion M as [a t0 l r T O|a t0 l r T]; subst; cbn [todo]; unfold tdo;
      (destruct (Nat.eqb_spec x t0) as [->|]; [specialize (D t0 Lx); congruence|apply D; exact Lx]). }
    destruct (IH s0 s1 F1) as (s2 & R & Z); [exists n; split; [exact D1|lia]|].
    exists s2. split; [econstructor; eassumption|exact Z].
Qed.
Lemma spared_moves : forall s s' t, gos (spared lk (good w egg) s) (child s) s' -> todo s' t <> [] -> exists s2, mv s' s2.
Proof using MF FM LM E. intros s s' t R N. exact (fit_progress s s' t (fit_gos s _ s' R (fit_child s)) N). Qed.
Lemma spared_end : forall s s', gos (spared lk (good w egg) s) (child s) s' ->
  exists s2, mvs s' s2 /\ (forall t, todo s2 t = []) /\ forall l, owner s2 l = owner s l.
Proof using MF FM LM E.
  intros s s' R. pose proof (fit_gos s _ s' R (fit_child s)) as F. pose proof F as (_ & _ & h & _ & _ & _ & n & D).
  eapply fit_finish; [exact F|]. exists n. split; [exact D|apply le_n].
Qed.
End Good.

(** ** Locks taken at the fork *)
Section Any.
Variables (w : world) (egg : chn).
Lemma child_dead : forall s, dead (child s) (fun _ => []) (fun l => owner s l <> None).
Proof.
  intros s. split; [split; [|split]|split].
  - intros t. exists []. constructor.
  - intros t l [].
  - intros t. constructor.
  - intros l O. exact O.
  - intros t l _ [].
Qed.
Lemma child_lost : forall s l, owner s l <> None -> lost lk lk_eqb (any w egg) (child s) l.
Proof. intros s l O. exact (dead_lost w egg _ _ _ l (child_dead s) O). Qed.
Lemma waits_on : forall s s2 l t, gos (any w egg) s s2 -> lost lk lk_eqb (any w egg) s l -> In (Take l) (todo s t) -> In (Take l) (todo s2 t).
Proof.
  intros s s2 l t R. induction R as [s|s s1 s2 G R IH]; intros L I; [exact I|].
  assert (O : owner s l <> None) by (apply L; constructor).
  apply IH; [intros s3 R3; apply L; econstructor; eassumption|].
  inversion G as [a b M|a u r T C]; subst.
  - inversion M as [a u k r T Ok|a u k r T]; subst; cbn [todo]; unfold tdo; (destruct (Nat.eqb_spec t u) as [->|]; [|exact I]);
      rewrite T in I; (destruct I as [I|I]; [|exact I]); [injection I as ->; contradiction|discriminate I].
  - cbn [todo]. unfold tdo. destruct (Nat.eqb_spec t u) as [->|]; [|exact I]. rewrite T in I. destruct I.
Qed.
Lemma child_waits : forall s l s' t, owner s l <> None -> gos (any w egg) (child s) s' -> In (Take l) (todo s' t) ->
  never_out lk lk_eqb (any w egg) s' t.
Proof.
  intros s l s' t O R I s2 R2 Z.
  assert (L : lost lk lk_eqb (any w egg) s' l) by (intros s3 R3; apply (child_lost s l O); eapply gos_trans; eassumption).
  pose proof (waits_on s' s2 l t R2 L I) as K. rewrite Z in K. destruct K.
Qed.

(** ** Such a fork happens *)
Definition needs (c : chn) (l : lk) : Prop :=
  l = LChain 0 \/ exists z, source c = Light z /\ (l = LSrc z \/ l = LReg /\ listed c = true).
Lemma malloc_needs : forall c l, egg_ok egg -> flag_moves w = false -> needs c l -> path (malloc w egg c) [Take l; Give l].
Proof.
  intros c l (E0 & E1 & _) FM [->|(z & S & [->|(-> & L)])].
  - unfold malloc. change [Take (LChain 0); Give (LChain 0)] with ([Take (LChain 0); Give (LChain 0)] ++ [] : list opl).
    apply p_seq; [|change [] with ([] ++ [] : list opl); apply p_seq; [apply p_none|apply p_left; constructor]].
    unfold get_tls. apply p_right. unfold setup_tls_chain.
    change [Take (LChain 0); Give (LChain 0)] with ([] ++ [Take (LChain 0); Give (LChain 0)] ++ [] : list opl).
    apply p_seq; [apply p_left; constructor|]. apply p_seq; [|apply p_left; constructor].
    unfold chain_alloc. apply p_right, p_right. unfold lock_chain, unlock_chain. rewrite E1, FM, E0.
    change [Take (LChain 0); Give (LChain 0)] with ([Take (LChain 0)] ++ [] ++ [Give (LChain 0)] : list opl).
    apply p_seq; [constructor|]. apply p_seq; [apply p_left; constructor|constructor].
  - apply malloc_path. unfold request_mem. rewrite S. cbn [source_request].
    change [Take (LSrc z); Give (LSrc z)] with ([Take (LSrc z); Give (LSrc z)] ++ [] : list opl).
    apply p_seq; [|apply p_left; constructor]. unfold light_request. apply p_right. unfold find_in_cache.
    change [Take (LSrc z); Give (LSrc z)] with ([Take (LSrc z)] ++ [Give (LSrc z)] : list opl). apply p_seq; constructor.
  - apply malloc_path. exact (request_path w c z S L).
Qed.
Lemma fork_stuck : forall c l s t u, egg_ok egg -> flag_moves w = false -> chn_ok c -> needs c l -> t <> u ->
  todo s t = [] -> todo s u = [] -> owner s l = None ->
  exists s', gos (good w egg) s s' /\ todo s' t = [] /\ todo s' u = [Give l] /\
    good w egg [Take l; Give l] /\ forall v, never_out lk lk_eqb (any w egg) (calling lk (child s') v [Take l; Give l]) v.
Proof.
  intros c l s t u E FM C N D T U O.
  assert (G : good w egg [Take l; Give l]) by (exists (malloc w egg c); split; [apply gc_malloc; left; exact C|exact (malloc_needs c l E FM N)]).
  set (s1 := mkO (owner s) (tdo lk s u [Take l; Give l]) : st).
  assert (T1 : todo s1 u = [Take l; Give l]) by (cbn [s1 todo]; unfold tdo; rewrite Nat.eqb_refl; reflexivity).
  exists (mkO (own lk lk_eqb s1 l (Some u)) (tdo lk s1 u [Give l])). split; [|split; [|split; [|split; [exact G|]]]].
  - eapply gs_step; [apply (g_call lk lk_eqb (good w egg) s u _ U G)|]. eapply gs_step; [|apply gs_refl]. apply g_move.
    exact (m_take lk lk_eqb s1 u l [Give l] T1 O).
  - cbn [todo]. unfold tdo. apply Nat.eqb_neq in D. rewrite D. cbn [s1 todo]. unfold tdo. rewrite D. exact T.
  - cbn [todo]. unfold tdo. rewrite Nat.eqb_refl. reflexivity.
  - intros v. match goal with |- never_out _ _ _ (calling _ (ForkSpec.child _ ?x) _ _) _ => apply (child_waits x l) end.
    + cbn [owner]. unfold own. rewrite lk_eqb_refl. discriminate.
    + eapply gs_step; [|apply gs_refl]. apply g_call; [reflexivity|]. exists (malloc w egg c).
      split; [apply ac_good, gc_malloc; left; exact C|exact (malloc_needs c l E FM N)].
    + unfold calling. cbn [todo]. unfold tdo. rewrite Nat.eqb_refl. left. reflexivity.
Qed.
End Any.
