(** Concurrent calls on a thread-safe chain lead to states of sequential histories. *)
From Verif Require Import Word Res Mem ChainModel ChainSpec ChainProps ChainMore ChainSrc ChainFit LockModel AtomicModel AtomicSpec AtomicProofs ThreadSpec.
From Coq Require Import ZArith List Bool Lia.
Import ListNotations.
Open Scope Z_scope.

Section Threads.
Variable g : cfg.
Variable fuel : nat.
Variable s0 : st.
Variable o0 : obs.
Notation step := (ChainSpec.step fuel g).
Notation reach := (ChainSpec.reach g).

(** Who may use an address: the program, or a thread that is in a call about it. *)
Inductive who := Nobody | Prog | InCall (t : nat).

Record J (f : nat -> tph op Z) (q : nat -> option op) (own : Z -> bool) (s : st) (o : obs) (w : Z -> who) : Prop := {
  j_reach : reach s o;
  j_call : forall t, match f t with
    | Nothing => q t = None
    | Called a => q t = Some a /\ ((exists d n gr, a = OAlloc d n gr /\ 0 <= n /\ (d = 0 \/ exists k, 0 <= k /\ d = 2 ^ k) /\ n + d < 2 ^ 63 - 64 /\
          (csrc g = true -> ~ huge d n)) \/
        (exists p, a = OFree p /\ (p = 0 \/ w p = InCall t)))
    | Done r => (exists d n gr, q t = Some (OAlloc d n gr) /\ (r = 0 \/ w r = InCall t)) \/ (exists p, q t = Some (OFree p))
    end;
  j_own : forall p, own p = true -> p <> 0 /\ w p = Prog;
  j_live : forall p, w p <> Nobody -> exists n d, In (mkBlk p n d) (live o) }.

(** The memory in the chain, and what the source gives to the calls that have not taken effect. *)
Record K (f : nat -> tph op Z) (L : list (Z * Z)) (o : obs) : Prop := {
  k_segs : forall r, In r (segs o) -> In r L;
  k_in : forall t d n b, f t = Called (OAlloc d n (Some b)) -> In (b, ask_size d n) L;
  k_new : csrc g = true -> forall t d n b, f t = Called (OAlloc d n (Some b)) -> new_range g o b (ask_size d n);
  k_apart : csrc g = true -> forall t u d n b d' n' b', t <> u -> f t = Called (OAlloc d n (Some b)) -> f u = Called (OAlloc d' n' (Some b')) ->
    apart (b, ask_size d n) (b', ask_size d' n') }.

Lemma apart_sym : forall x y, apart x y -> apart y x.
Proof. unfold apart. intros x y [H|H]; [right|left]; exact H. Qed.
Lemma in_apply : forall evs L r, In r (fold_right apply_ev L evs) -> In r L \/ exists b z, r = (b, z) /\ In (EGet b z) evs.
Proof.
  induction evs as [|e evs IH]; intros L r H; cbn in H; [left; exact H|]. destruct e as [b z|b]; cbn in H.
  - destruct H as [<-|H]; [right; exists b, z; split; [reflexivity|left; reflexivity]|].
    destruct (IH L r H) as [H1|(b' & z' & H1 & H2)]; [left; exact H1|right; exists b', z'; split; [exact H1|right; exact H2]].
  - apply filter_In in H. destruct H as [H _].
    destruct (IH L r H) as [H1|(b' & z' & H1 & H2)]; [left; exact H1|right; exists b', z'; split; [exact H1|right; exact H2]].
Qed.
(** What a call adds to the memory of the chain. *)
Lemma new_segs : forall s o a r s', reach s o -> valid g s o a -> step a s = Ok (r, s') ->
  (exists d n gr, a = OAlloc d n gr) \/ (exists p, a = OFree p) ->
  forall x, In x (segs (next o a r (sevs s'))) -> In x (segs o) \/ csrc g = true /\ exists d n b, a = OAlloc d n (Some b) /\ x = (b, ask_size d n).
Proof.
  intros s o a r s' R V E HA x HX.
  assert (HX' : In x (fold_right apply_ev (segs o) (sevs s'))) by (destruct HA as [(d & n & gr & ->)|(p & ->)]; exact HX).
  destruct (in_apply _ _ _ HX') as [H|(b & z & -> & H)]; [left; exact H|right].
  split; [exact (proj1 (gets_new g s o a fuel r s' b z R V E H))|].
  destruct (asks_when_full g s o a fuel r s' b z R V E H) as (d & n & [H1|(p & H1)] & -> & _); [exists d, n, b; auto|].
  destruct HA as [(d1 & n1 & gr & ->)|(p1 & ->)]; discriminate.
Qed.
Lemma k_lin : forall f f' L s o a r s' t, K f L o -> reach s o -> valid g s o a -> step a s = Ok (r, s') ->
  (exists d n gr, a = OAlloc d n gr) \/ (exists p, a = OFree p) -> f t = Called a -> f' t = Done r -> (forall u, u <> t -> f' u = f u) ->
  K f' L (next o a r (sevs s')).
Proof.
  intros f f' L s o a r s' t [K1 K2 K3 K4] R V E HA Ft Ft' Fu.
  pose proof (new_segs s o a r s' R V E HA) as NS.
  assert (OLD : forall u d n b, f' u = Called (OAlloc d n (Some b)) -> u <> t /\ f u = Called (OAlloc d n (Some b))).
  { intros u d n b H. destruct (Nat.eq_dec u t) as [->|N]; [congruence|]. rewrite (Fu u N) in H. auto. }
  constructor.
  - intros x HX. destruct (NS x HX) as [H|(_ & d & n & b & -> & ->)]; [exact (K1 x H)|exact (K2 t d n b Ft)].
  - intros u d n b H. destruct (OLD _ _ _ _ H) as [_ H1]. exact (K2 u d n b H1).
  - intros C u d n b H. destruct (OLD _ _ _ _ H) as [N H1]. destruct (K3 C u d n b H1) as (A1 & A2 & A3 & A4 & A5 & A6).
    repeat (split; [assumption|]). intros x [<-|HX]; [apply A6; left; reflexivity|].
    destruct (NS x HX) as [H2|(_ & d' & n' & b' & -> & ->)]; [apply A6; right; exact H2|].
    exact (K4 C u t d n b d' n' b' N H1 Ft).
  - intros C u v d n b d' n' b' N H1 H2. destruct (OLD _ _ _ _ H1) as [_ X1]. destruct (OLD _ _ _ _ H2) as [_ X2].
    exact (K4 C u v d n b d' n' b' N X1 X2).
Qed.
Lemma k_other : forall f f' L o t, K f L o -> (forall a, f' t <> Called a) \/ (exists p, f' t = Called (OFree p)) -> (forall u, u <> t -> f' u = f u) -> K f' L o.
Proof.
  intros f f' L o t [K1 K2 K3 K4] Ft Fu.
  assert (OLD : forall u d n b, f' u = Called (OAlloc d n (Some b)) -> f u = Called (OAlloc d n (Some b))).
  { intros u d n b H. destruct (Nat.eq_dec u t) as [->|N]; [|rewrite (Fu u N) in H; exact H].
    destruct Ft as [Ft|(p & Ft)]; [exfalso; exact (Ft _ H)|congruence]. }
  constructor; [exact K1|intros u d n b H; exact (K2 u d n b (OLD _ _ _ _ H))|intros C u d n b H; exact (K3 C u d n b (OLD _ _ _ _ H))|].
  intros C u v d n b d' n' b' N H1 H2. exact (K4 C u v d n b d' n' b' N (OLD _ _ _ _ H1) (OLD _ _ _ _ H2)).
Qed.
Lemma small_ask : forall d n, ~ huge d n -> ask_size d n = 2097152.
Proof. intros d n H. unfold ask_size. destruct (Z.ltb_spec (1048576 - 16) (asked d n)); [contradiction|reflexivity]. Qed.
Lemma grants_app : forall a b, grants (a ++ b) = grants a ++ grants b.
Proof.
  induction a as [|[t [d n gr|p|h p n gr|b0 z|x v|p| |m]|t r] a IH]; intros b; cbn; try (rewrite IH; reflexivity); [reflexivity|].
  destruct gr; cbn; rewrite IH; reflexivity.
Qed.
Lemma k_call : forall f f' h o t d n gr, K f (segs o0 ++ grants h) o -> f t = Nothing -> f' t = Called (OAlloc d n gr) -> (forall u, u <> t -> f' u = f u) ->
  (csrc g = true -> fresh_grant g (segs o0 ++ grants h) d n gr) -> K f' (segs o0 ++ grants (h ++ [ECall t (OAlloc d n gr)])) o.
Proof.
  intros f f' h o t d n gr [K1 K2 K3 K4] E1 E2 E3 FG. rewrite grants_app, app_assoc.
  assert (OLD : forall u d1 n1 b1, f' u = Called (OAlloc d1 n1 (Some b1)) ->
    (u = t /\ d1 = d /\ n1 = n /\ gr = Some b1) \/ (u <> t /\ f u = Called (OAlloc d1 n1 (Some b1)))).
  { intros u d1 n1 b1 H. destruct (Nat.eq_dec u t) as [->|N]; [left|right; rewrite (E3 u N) in H; auto].
    rewrite E2 in H. injection H as -> -> ->. auto. }
  constructor.
  - intros r H. apply in_or_app. left. exact (K1 r H).
  - intros u d1 n1 b1 H. apply in_or_app. destruct (OLD _ _ _ _ H) as [(-> & -> & -> & ->)|(N & H1)].
    + right. cbn. left. reflexivity.
    + left. exact (K2 u d1 n1 b1 H1).
  - intros C u d1 n1 b1 H. destruct (OLD _ _ _ _ H) as [(-> & -> & -> & ->)|(N & H1)]; [|exact (K3 C u d1 n1 b1 H1)].
    destruct (FG C) as (NH & FR). destruct (FR b1 eq_refl) as (A1 & A2 & A3 & A4). rewrite (small_ask _ _ NH) in *.
    split; [exact A1|]. split; [exact A2|]. split; [exact A3|]. split; [reflexivity|]. split; [lia|].
    intros r [<-|H2]; apply A4; [left; reflexivity|right; exact (K1 r H2)].
  - intros C u v d1 n1 b1 d2 n2 b2 N H1 H2.
    destruct (OLD _ _ _ _ H1) as [(-> & -> & -> & G1)|(N1 & X1)]; destruct (OLD _ _ _ _ H2) as [(-> & -> & -> & G2)|(N2 & X2)].
    + contradiction.
    + destruct (FG C) as (NH & FR). destruct (FR b1 G1) as (_ & _ & _ & A4). apply A4. right. exact (K2 _ _ _ _ X2).
    + destruct (FG C) as (NH & FR). destruct (FR b2 G2) as (_ & _ & _ & A4). apply apart_sym. apply A4. right. exact (K2 _ _ _ _ X1).
    + exact (K4 C u v d1 n1 b1 d2 n2 b2 N X1 X2).
Qed.
(** The calls that have not taken effect are valid. *)
Lemma called_valid : forall f L s o t d n gr, K f L o -> f t = Called (OAlloc d n gr) ->
  0 <= n -> (d = 0 \/ exists k, 0 <= k /\ d = 2 ^ k) -> n + d < 2 ^ 63 - 64 -> (csrc g = true -> ~ huge d n) -> valid g s o (OAlloc d n gr).
Proof.
  intros f L s o t d n gr KK Ft Hn Hd Hs Hh. cbn. unfold request_ok. split; [exact Hn|]. split; [exact Hd|]. split; [exact Hs|].
  split; [intros C H; exfalso; exact (Hh C H)|]. intros C b ->. exact (k_new _ _ _ KK C _ _ _ _ Ft).
Qed.

Definition wupd (w : Z -> who) (p : Z) (v : who) : Z -> who := fun x => if x =? p then v else w x.
Lemma wupd_same w p v : wupd w p v p = v.
Proof. unfold wupd. rewrite Z.eqb_refl. reflexivity. Qed.
Lemma wupd_other w p v x : x <> p -> wupd w p v x = w x.
Proof. intros H. unfold wupd. destruct (Z.eqb_spec x p); [contradiction|reflexivity]. Qed.

Lemma snoc_inj : forall A (l1 l2 : list A) a b, l1 ++ [a] = l2 ++ [b] -> l1 = l2 /\ a = b.
Proof. intros. apply app_inj_tail. assumption. Qed.

Lemma erase_snoc_call : forall (h : list (hev op Z)) t a, erase (h ++ [HCall t a]) = erase h ++ [ECall t a].
Proof. intros. rewrite erase_app. reflexivity. Qed.
Lemma erase_snoc_lin : forall (h : list (hev op Z)) t a r, erase (h ++ [HLin t a r]) = erase h.
Proof. intros. rewrite erase_app. apply app_nil_r. Qed.
Lemma erase_snoc_ret : forall (h : list (hev op Z)) t r, erase (h ++ [HRet t r]) = erase h ++ [ERetn t r].
Proof. intros. rewrite erase_app. reflexivity. Qed.

Lemma in_live_map : forall p (l : list blk), (exists n d, In (mkBlk p n d) l) -> In p (map bp l).
Proof. intros p l (n & d & H). exact (in_map bp _ _ H). Qed.

(** From the initial state of the threads. *)
Lemma threads_inv : forall h f, well h f -> forall s q own, reach s0 o0 -> in_order step s0 (points h) s -> contract g o0 (erase h) q own ->
  exists o w, J f q own s o w /\ K f (segs o0 ++ grants (erase h)) o.
Proof.
  induction 1 as [|h f t a f' W IH E1 E2 E3|h f t a r f' W IH E1 E2 E3|h f t r f' W IH E1 E2 E3]; intros s q own R0 X C.
  - cbn in *. inversion X as [|? ? ? ? ? ? X1 X2 Y1 Y2 Y3]; subst; [|destruct l; discriminate].
    inversion C as [| | | | ]; subst; try (match goal with H : _ ++ [_] = [] |- _ => destruct (app_cons_not_nil _ _ _ (eq_sym H)) end).
    exists o0, (fun _ => Nobody). split; [constructor; [exact R0|intros; reflexivity|discriminate|congruence]|].
    constructor; [intros r H; apply in_or_app; left; exact H|discriminate|discriminate|discriminate].
  - rewrite erase_snoc_call in C. rewrite points_app in X. cbn in X. rewrite app_nil_r in X.
    inversion C as [X0|h1 q1 own1 q1' t1 d n gr C1 Hn Hd Hs Hg Q1 Q2 Q3 Y1|h1 q1 own1 q1' own1' t1 p C1 Hp O1 O2 Q1 Q2 Q3 Y1|h1 q1 own1 q1' own1' t1 d n gr r1 C1 Q1 Q2 Q3 O1 O2 Y1|h1 q1 own1 q1' t1 p r1 C1 Q1 Q2 Q3 Y1]; subst.
    + exfalso. exact (app_cons_not_nil _ _ _ X0).
    + apply snoc_inj in Y1. destruct Y1 as [-> Y1]. injection Y1 as -> <-.
      destruct (IH s q1 own R0 X C1) as (o & w & I & KK). exists o, w. split; [|rewrite erase_snoc_call; exact (k_call _ _ _ _ _ _ _ _ KK E1 E2 E3 Hg)].
      destruct I. constructor; try assumption.
      intros u. destruct (Nat.eq_dec u t) as [->|N].
      * rewrite E2. split; [exact Q2|]. left. exists d, n, gr. repeat (split; [assumption || reflexivity|]). intros CS. exact (proj1 (Hg CS)).
      * rewrite (E3 u N), (Q3 u N). exact (j_call0 u).
    + apply snoc_inj in Y1. destruct Y1 as [-> Y1]. injection Y1 as -> <-.
      destruct (IH s q1 own1 R0 X C1) as (o & w & I & KK).
      assert (KK' : K f' (segs o0 ++ grants (erase (h ++ [HCall t (OFree p)]))) o).
      { rewrite erase_snoc_call, grants_app. cbn. rewrite app_nil_r. exact (k_other _ _ _ _ t KK (or_intror (ex_intro _ p E2)) E3). }
      destruct (Z.eq_dec p 0) as [->|NZ].
      * exists o, w. split; [|exact KK']. destruct I. constructor; try assumption.
        -- intros u. destruct (Nat.eq_dec u t) as [->|N].
           ++ rewrite E2. split; [exact Q2|]. right. exists 0. auto.
           ++ rewrite (E3 u N), (Q3 u N). exact (j_call0 u).
        -- intros p Hp'. destruct (Z.eq_dec p 0) as [->|N]; [congruence|]. rewrite (O2 p N) in Hp'. exact (j_own0 p Hp').
      * destruct Hp as [Hp|Hp]; [contradiction|]. destruct (j_own _ _ _ _ _ _ I p Hp) as [_ Wp].
        exists o, (wupd w p (InCall t)). split; [|exact KK']. destruct I. constructor; try assumption.
        -- intros u. destruct (Nat.eq_dec u t) as [->|N].
           ++ rewrite E2. split; [exact Q2|]. right. exists p. split; [reflexivity|]. right. apply wupd_same.
           ++ rewrite (E3 u N), (Q3 u N). specialize (j_call0 u). destruct (f u) as [|a|r].
              ** exact j_call0.
              ** destruct j_call0 as [H1 [H2|(p' & H2 & H3)]]; (split; [exact H1|]); [left; exact H2|right]. exists p'. split; [exact H2|].
                 destruct H3 as [H3|H3]; [left; exact H3|right]. rewrite wupd_other; [exact H3|]. intros ->. congruence.
              ** destruct j_call0 as [(d & n & gr & H1 & H2)|H1]; [left|right; exact H1]. exists d, n, gr. split; [exact H1|].
                 destruct H2 as [H2|H2]; [left; exact H2|right]. rewrite wupd_other; [exact H2|]. intros ->. congruence.
        -- intros x Hx. destruct (Z.eq_dec x p) as [->|N]; [congruence|]. rewrite (O2 x N) in Hx. rewrite wupd_other by exact N. exact (j_own0 x Hx).
        -- intros x Hx. destruct (Z.eq_dec x p) as [->|N]; [apply j_live0; congruence|]. rewrite wupd_other in Hx by exact N. exact (j_live0 x Hx).
    + apply snoc_inj in Y1. destruct Y1 as [_ Y1]. discriminate.
    + apply snoc_inj in Y1. destruct Y1 as [_ Y1]. discriminate.
  - rewrite erase_snoc_lin in C. rewrite points_app in X. cbn in X.
    inversion X as [s1 Y1|s1 l s2 a1 r1 s3 X1 X2 Y1 Y2 Y3]; subst; [match goal with H : [] = _ ++ [_] |- _ => exfalso; exact (app_cons_not_nil _ _ _ H) end|].
    apply snoc_inj in Y2. destruct Y2 as [-> Y2]. injection Y2 as -> ->.
    destruct (IH s2 q own R0 X1 C) as (o & w & I & KK).
    pose proof (j_call _ _ _ _ _ _ I t) as JC. rewrite E1 in JC. rewrite erase_snoc_lin. destruct JC as [Qt [(d & n & gr & -> & Hn & Hd & Hs & Hh)|(p & -> & Hp)]].
    + assert (V := called_valid _ _ s2 o t d n gr KK E1 Hn Hd Hs Hh).
      assert (KK' := k_lin _ _ _ _ _ _ _ _ t KK (j_reach _ _ _ _ _ _ I) V X2 (or_introl (ex_intro _ d (ex_intro _ n (ex_intro _ gr eq_refl)))) E1 E2 E3).
      destruct (Z.eq_dec r 0) as [->|NR].
      * exists (next o (OAlloc d n gr) 0 (sevs s)), w. split; [|exact KK']. pose proof (reach_step g s2 o fuel _ _ _ (j_reach _ _ _ _ _ _ I) V X2) as R'.
        destruct I. constructor; try assumption.
        intros u. destruct (Nat.eq_dec u t) as [->|N].
        -- rewrite E2. left. exists d, n, gr. auto.
        -- rewrite (E3 u N). exact (j_call0 u).
      * destruct (alloc_block g s2 o d n gr fuel r s (j_reach _ _ _ _ _ _ I) V X2 NR) as (L1 & R' & New).
        assert (Wr : w r = Nobody).
        { destruct (w r) eqn:E; [reflexivity| |]; exfalso; apply New; unfold blocks; rewrite map_app; apply in_or_app; left;
            apply in_live_map, (j_live _ _ _ _ _ _ I); congruence. }
        exists (next o (OAlloc d n gr) r (sevs s)), (wupd w r (InCall t)). split; [|exact KK']. destruct I. constructor; try assumption.
        -- intros u. destruct (Nat.eq_dec u t) as [->|N].
           ++ rewrite E2. left. exists d, n, gr. split; [exact Qt|]. right. apply wupd_same.
           ++ rewrite (E3 u N). specialize (j_call0 u). destruct (f u) as [|a|r1].
              ** exact j_call0.
              ** destruct j_call0 as [H1 [H2|(p' & H2 & H3)]]; (split; [exact H1|]); [left; exact H2|right]. exists p'. split; [exact H2|].
                 destruct H3 as [H3|H3]; [left; exact H3|right]. rewrite wupd_other; [exact H3|]. intros ->. congruence.
              ** destruct j_call0 as [(d1 & n1 & gr1 & H1 & H2)|H1]; [left|right; exact H1]. exists d1, n1, gr1. split; [exact H1|].
                 destruct H2 as [H2|H2]; [left; exact H2|right]. rewrite wupd_other; [exact H2|]. intros ->. congruence.
        -- intros x Hx. destruct (j_own0 x Hx) as [H1 H2]. split; [exact H1|]. rewrite wupd_other; [exact H2|]. intros ->. congruence.
        -- intros x Hx. destruct (Z.eq_dec x r) as [->|N]; [exists n, d; exact L1|]. rewrite wupd_other in Hx by exact N.
           destruct (j_live0 x Hx) as (n1 & d1 & L). exists n1, d1. cbn. destruct (Z.eqb_spec r 0); [contradiction|]. right. exact L.
    + assert (V : valid g s2 o (OFree p)).
      { cbn. destruct Hp as [Hp|Hp]; [left; exact Hp|right]. apply (j_live _ _ _ _ _ _ I). congruence. }
      pose proof (reach_step g s2 o fuel _ _ _ (j_reach _ _ _ _ _ _ I) V X2) as R'.
      exists (next o (OFree p) r (sevs s)), (wupd w p Nobody).
      split; [|exact (k_lin _ _ _ _ _ _ _ _ t KK (j_reach _ _ _ _ _ _ I) V X2 (or_intror (ex_intro _ p eq_refl)) E1 E2 E3)]. destruct I. constructor; try assumption.
      * intros u. destruct (Nat.eq_dec u t) as [->|N].
        -- rewrite E2. right. exists p. exact Qt.
        -- rewrite (E3 u N). specialize (j_call0 u). destruct (f u) as [|a|r1].
           ++ exact j_call0.
           ++ destruct j_call0 as [H1 [H2|(p' & H2 & H3)]]; (split; [exact H1|]); [left; exact H2|right]. exists p'. split; [exact H2|].
              destruct (Z.eq_dec p' p) as [->|NP]; [|rewrite wupd_other by exact NP; exact H3].
              left. destruct Hp as [Hp|Hp]; [exact Hp|]. destruct H3 as [H3|H3]; [exact H3|congruence].
           ++ destruct j_call0 as [(d1 & n1 & gr1 & H1 & H2)|H1]; [left|right; exact H1]. exists d1, n1, gr1. split; [exact H1|].
              destruct (Z.eq_dec r1 p) as [->|NP]; [|rewrite wupd_other by exact NP; exact H2].
              left. destruct Hp as [Hp|Hp]; [exact Hp|]. destruct H2 as [H2|H2]; [exact H2|congruence].
      * intros x Hx. destruct (j_own0 x Hx) as [H1 H2]. split; [exact H1|]. rewrite wupd_other; [exact H2|]. intros ->. destruct Hp; congruence.
      * intros x Hx. destruct (Z.eq_dec x p) as [->|N]; [rewrite wupd_same in Hx; congruence|]. rewrite wupd_other in Hx by exact N.
        destruct (j_live0 x Hx) as (n1 & d1 & L). exists n1, d1. cbn. unfold rm. apply filter_In. split; [exact L|]. cbn.
        destruct (Z.eqb_spec x p); [contradiction|reflexivity].
  - rewrite erase_snoc_ret in C. rewrite points_app in X. cbn in X. rewrite app_nil_r in X.
    inversion C as [X0|h1 q1 own1 q1' t1 d n gr C1 Hn Hd Hs Hg Q1 Q2 Q3 Y1|h1 q1 own1 q1' own1' t1 p C1 Hp O1 O2 Q1 Q2 Q3 Y1|h1 q1 own1 q1' own1' t1 d n gr r1 C1 Q1 Q2 Q3 O1 O2 Y1|h1 q1 own1 q1' t1 p r1 C1 Q1 Q2 Q3 Y1]; subst.
    + exfalso. exact (app_cons_not_nil _ _ _ X0).
    + apply snoc_inj in Y1. destruct Y1 as [_ Y1]. discriminate.
    + apply snoc_inj in Y1. destruct Y1 as [_ Y1]. discriminate.
    + apply snoc_inj in Y1. destruct Y1 as [-> Y1]. injection Y1 as -> ->.
      destruct (IH s q1 own1 R0 X C1) as (o & w & I & KK).
      assert (KK' : K f' (segs o0 ++ grants (erase (h ++ [HRet t r]))) o).
      { rewrite erase_snoc_ret, grants_app. cbn. rewrite app_nil_r. apply (k_other _ _ _ _ t KK); [left; intros a; rewrite E2; discriminate|exact E3]. }
      pose proof (j_call _ _ _ _ _ _ I t) as JC. rewrite E1 in JC.
      assert (HR : r = 0 \/ w r = InCall t).
      { destruct JC as [(d1 & n1 & gr1 & H1 & H2)|(p & H1)]; [exact H2|congruence]. }
      destruct (Z.eq_dec r 0) as [->|NR].
      * exists o, w. split; [|exact KK']. destruct I. constructor; try assumption.
        -- intros u. destruct (Nat.eq_dec u t) as [->|N]; [rewrite E2; exact Q2|rewrite (E3 u N), (Q3 u N); exact (j_call0 u)].
        -- intros x Hx. destruct (Z.eq_dec x 0) as [->|N]; [rewrite O1 in Hx; discriminate|]. rewrite (O2 x N) in Hx. exact (j_own0 x Hx).
      * destruct HR as [HR|HR]; [contradiction|].
        exists o, (wupd w r Prog). split; [|exact KK']. destruct I. constructor; try assumption.
        -- intros u. destruct (Nat.eq_dec u t) as [->|N]; [rewrite E2; exact Q2|]. rewrite (E3 u N), (Q3 u N). specialize (j_call0 u).
           destruct (f u) as [|a|r1].
           ++ exact j_call0.
           ++ destruct j_call0 as [H1 [H2|(p' & H2 & H3)]]; (split; [exact H1|]); [left; exact H2|right]. exists p'. split; [exact H2|].
              destruct H3 as [H3|H3]; [left; exact H3|right]. rewrite wupd_other; [exact H3|]. intros ->. congruence.
           ++ destruct j_call0 as [(d1 & n1 & gr1 & H1 & H2)|H1]; [left|right; exact H1]. exists d1, n1, gr1. split; [exact H1|].
              destruct H2 as [H2|H2]; [left; exact H2|right]. rewrite wupd_other; [exact H2|]. intros ->. congruence.
        -- intros x Hx. destruct (Z.eq_dec x r) as [->|N]; [split; [exact NR|apply wupd_same]|]. rewrite (O2 x N) in Hx.
           rewrite wupd_other by exact N. exact (j_own0 x Hx).
        -- intros x Hx. destruct (Z.eq_dec x r) as [->|N]; [apply j_live0; congruence|]. rewrite wupd_other in Hx by exact N. exact (j_live0 x Hx).
    + apply snoc_inj in Y1. destruct Y1 as [-> Y1]. injection Y1 as -> ->.
      destruct (IH s q1 own R0 X C1) as (o & w & I & KK). exists o, w.
      split; [|rewrite erase_snoc_ret, grants_app; cbn; rewrite app_nil_r; apply (k_other _ _ _ _ t KK); [left; intros a; rewrite E2; discriminate|exact E3]].
      destruct I. constructor; try assumption.
      intros u. destruct (Nat.eq_dec u t) as [->|N]; [rewrite E2; exact Q2|rewrite (E3 u N), (Q3 u N); exact (j_call0 u)].
Qed.
End Threads.

Lemma chain_linearizable : forall g fuel (P : op -> prog st Z) s0 c, (forall a s, prun (P a) s = ChainSpec.step fuel g a s) ->
  cexec P s0 c -> linearizable (ChainSpec.step fuel g) s0 (ctr c).
Proof.
  intros g fuel P s0 c E X. destruct (atomic_linearizable P s0 c X) as (h & f & s & H1 & H2 & H3). exists h, f, s.
  split; [exact H1|]. split; [exact H2|]. exact (in_order_ext _ _ _ _ _ _ _ _ E H3).
Qed.

Lemma chain_state : forall g fuel (P : op -> prog st Z) s0 c, (forall a s, prun (P a) s = ChainSpec.step fuel g a s) ->
  cexec P s0 c -> quiet c -> exists h f, erase h = ctr c /\ well h f /\ in_order (ChainSpec.step fuel g) s0 (points h) (sh c).
Proof.
  intros g fuel P s0 c E X Q. destruct (atomic_state P s0 c X Q) as (h & f & H1 & H2 & H3). exists h, f.
  split; [exact H1|]. split; [exact H2|]. exact (in_order_ext _ _ _ _ _ _ _ _ E H3).
Qed.

Lemma threads_safe : forall g fuel (P : op -> prog st Z) s0 o0 c q own,
  (forall a s, prun (P a) s = ChainSpec.step fuel g a s) -> ChainSpec.reach g s0 o0 ->
  cexec P s0 c -> contract g o0 (ctr c) q own -> quiet c ->
  exists o, ChainSpec.reach g (sh c) o /\ forall p, own p = true -> exists n d, In (mkBlk p n d) (live o).
Proof.
  intros g fuel P s0 o0 c q own E R X C Q. destruct (chain_state g fuel P s0 c E X Q) as (h & f & H1 & H2 & H3).
  rewrite <- H1 in C. destruct (threads_inv g fuel s0 o0 h f H2 (sh c) q own R H3 C) as (o & w & I & _).
  exists o. split; [exact (j_reach _ _ _ _ _ _ _ I)|]. intros p Hp. destruct (j_own _ _ _ _ _ _ _ I p Hp) as [_ Wp].
  apply (j_live _ _ _ _ _ _ _ I). congruence.
Qed.

(** A section never goes wrong. *)
Lemma threads_no_crash : forall g fuel (P : op -> prog st Z) s0 o0 c q own t p,
  (forall a s, prun (P a) s = ChainSpec.step fuel g a s) -> ChainSpec.reach g s0 o0 ->
  cexec P s0 c -> contract g o0 (ctr c) q own -> thr c t = TIn p -> prun p (sh c) <> UB /\ prun p (sh c) <> Abort.
Proof.
  intros g fuel P s0 o0 c q own t p E R X C T. destruct (cexec_inv P s0 c X) as (h & f & s & o & I).
  rewrite <- (ci_tr _ _ _ _ _ _ _ I) in C.
  destruct (threads_inv g fuel s0 o0 h f (ci_well _ _ _ _ _ _ _ I) s q own R (in_order_ext _ _ _ _ _ _ _ _ E (ci_seq _ _ _ _ _ _ _ I)) C) as (ob & w & JJ & KK).
  pose proof (ci_thr _ _ _ _ _ _ _ I t) as A. unfold agrees in A. rewrite T in A. destruct A as (_ & a & Ef & Er).
  unfold sem in Er. rewrite E in Er. rewrite Er.
  pose proof (j_call _ _ _ _ _ _ _ JJ t) as JC. rewrite Ef in JC. destruct JC as [_ JC].
  assert (V : valid g s ob a).
  { destruct JC as [(d & n & gr & -> & Hn & Hd & Hs & Hh)|(p' & -> & Hp)].
    - exact (called_valid _ _ _ s ob t d n gr KK Ef Hn Hd Hs Hh).
    - cbn. destruct Hp as [Hp|Hp]; [left; exact Hp|right]. apply (j_live _ _ _ _ _ _ _ JJ). congruence. }
  destruct (step_safe g s ob a fuel (j_reach _ _ _ _ _ _ _ JJ) V) as [->|(r & s' & ->)]; split; discriminate.
Qed.

(** A section in two steps, for the example. *)
Definition two_steps (g : cfg) (fuel : nat) (a : op) : prog st Z :=
  PAct (fun s => Ok (clear_ev s, PAct (fun s1 => match exec fuel g a s1 with
    | Ok (r, s2) => Ok (s2, PRet r) | UB => UB | Abort => Abort | OutOfFuel => OutOfFuel end))).
Lemma two_steps_ok : forall g fuel a s, prun (two_steps g fuel a) s = ChainSpec.step fuel g a s.
Proof. intros. cbn. unfold ChainSpec.step. destruct (exec fuel g a (clear_ev s)) as [[r s2]| | |]; reflexivity. Qed.

Fixpoint cplay {S A R} (P : A -> prog S R) (c : cst S A R) (l : list (cact A)) : option (cst S A R) :=
  match l with [] => Some c | x :: r => match cstep P c x with Some c1 => cplay P c1 r | None => None end end.
Lemma cplay_exec : forall S A R (P : A -> prog S R) s0 l c c', cexec P s0 c -> cplay P c l = Some c' -> cexec P s0 c'.
Proof.
  induction l as [|x l IH]; intros c c' X H; cbn in H; [injection H as <-; exact X|].
  destruct (cstep P c x) as [c1|] eqn:E; [|discriminate]. exact (IH c1 c' (cexec_step P s0 c x c1 X E) H).
Qed.

(** Prefixes of histories. *)
Lemma erase_split : forall (h : list (hev op Z)) h1 t r h2, erase h = h1 ++ ERetn t r :: h2 -> exists ha hb, h = ha ++ HRet t r :: hb /\ erase ha = h1.
Proof.
  induction h as [|[u a|u a x|u x] h IH]; intros h1 t r h2 E; cbn in E.
  - exfalso. exact (app_cons_not_nil _ _ _ E).
  - destruct h1 as [|e h1]; [discriminate|]. cbn in E. injection E as <- E. destruct (IH _ _ _ _ E) as (ha & hb & -> & <-).
    exists (HCall u a :: ha), hb. split; reflexivity.
  - destruct (IH _ _ _ _ E) as (ha & hb & -> & <-). exists (HLin u a x :: ha), hb. split; reflexivity.
  - destruct h1 as [|e h1]; cbn in E.
    + injection E as -> -> E. exists [], h. split; reflexivity.
    + injection E as <- E. destruct (IH _ _ _ _ E) as (ha & hb & -> & <-). exists (HRet u x :: ha), hb. split; reflexivity.
Qed.
Lemma well_prefix : forall (h : list (hev op Z)) f, well h f -> forall ha hb, h = ha ++ hb -> exists f', well ha f'.
Proof.
  induction 1 as [|h f t a f' W IH E1 E2 E3|h f t a r f' W IH E1 E2 E3|h f t r f' W IH E1 E2 E3]; intros ha hb E.
  { symmetry in E. apply app_eq_nil in E. destruct E as [-> _]. eexists. constructor. }
  all: destruct hb as [|b hb] using rev_ind; [rewrite app_nil_r in E; subst ha; eexists; econstructor; eassumption|].
  all: rewrite app_assoc in E; apply app_inj_tail in E; destruct E as [E _]; exact (IH _ _ E).
Qed.
Lemma well_ret_inv : forall (h : list (hev op Z)) f t r, well (h ++ [HRet t r]) f -> exists f', well h f' /\ f' t = Done r.
Proof.
  intros h f t r W. remember (h ++ [HRet t r]) as hh eqn:E. destruct W as [|h0 f t0 a g0 W E1 E2 E3|h0 f t0 a r0 g0 W E1 E2 E3|h0 f t0 r0 g0 W E1 E2 E3].
  - destruct h; discriminate.
  - apply app_inj_tail in E. destruct E as [_ E]. discriminate.
  - apply app_inj_tail in E. destruct E as [_ E]. discriminate.
  - apply app_inj_tail in E. destruct E as [-> E]. injection E as -> ->. exists f. auto.
Qed.
Lemma in_order_prefix : forall S A R (stp : A -> S -> res (R * S)) s l s', in_order stp s l s' -> forall l1 l2, l = l1 ++ l2 -> exists s1, in_order stp s l1 s1.
Proof.
  induction 1 as [s|s l s1 a r s2 X IH E1]; intros l1 l2 E.
  - symmetry in E. apply app_eq_nil in E. destruct E as [-> _]. eexists. constructor.
  - destruct l2 as [|b l2] using rev_ind; [rewrite app_nil_r in E; subst l1; eexists; econstructor; eassumption|].
    rewrite app_assoc in E. apply app_inj_tail in E. destruct E as [E _]. exact (IH _ _ E).
Qed.

(** An allocation never returns an address that the program holds. *)
Lemma fresh_result : forall g fuel (P : op -> prog st Z) s0 o0 c h1 t r h2 q own d n gr,
  (forall a s, prun (P a) s = ChainSpec.step fuel g a s) -> ChainSpec.reach g s0 o0 ->
  cexec P s0 c -> ctr c = h1 ++ ERetn t r :: h2 -> contract g o0 h1 q own -> q t = Some (OAlloc d n gr) -> r <> 0 -> own r = false.
Proof.
  intros g fuel P s0 o0 c h1 t r h2 q own d n gr E R X T C Qt NZ.
  destruct (chain_linearizable g fuel P s0 c E X) as (h & f & s & H1 & H2 & H3). rewrite T in H1.
  destruct (erase_split _ _ _ _ _ H1) as (ha & hb & -> & <-).
  assert (EE : ha ++ HRet t r :: hb = (ha ++ [HRet t r]) ++ hb) by (rewrite <- app_assoc; reflexivity).
  destruct (well_prefix _ _ H2 _ _ EE) as (f1 & W1). destruct (well_ret_inv _ _ _ _ W1) as (f2 & W2 & F2).
  rewrite points_app in H3. destruct (in_order_prefix _ _ _ _ _ _ _ H3 _ _ eq_refl) as (s1 & X1).
  destruct (threads_inv g fuel s0 o0 ha f2 W2 s1 q own R X1 C) as (ob & w & JJ & _).
  pose proof (j_call _ _ _ _ _ _ _ JJ t) as JC. rewrite F2 in JC. destruct (own r) eqn:Or; [|reflexivity].
  destruct (j_own _ _ _ _ _ _ _ JJ r Or) as [_ Wr]. destruct JC as [(d' & n' & gr' & _ & [JC|JC])|(p & JC)]; congruence.
Qed.
