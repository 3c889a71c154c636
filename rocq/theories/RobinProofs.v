(** Round robin: lemmas behind C56. *)
From Verif Require Import Res RobinModel RobinSpec.
From Coq Require Import List Bool Arith Lia.
Import ListNotations.

Lemma rmove_same s t p : rmove s t p t = p.
Proof. unfold rmove. rewrite Nat.eqb_refl. reflexivity. Qed.
Lemma rmove_other s t p x : x <> t -> rmove s t p x = rat s x.
Proof. intros N. unfold rmove. apply Nat.eqb_neq in N. rewrite N. reflexivity. Qed.
Lemma rruns_app n l1 l2 : forall s, rruns n (l1 ++ l2) s = rbind (rruns n l1 s) (rruns n l2).
Proof. induction l1 as [|t l1 IH]; intros s; cbn [app rruns rbind]; [reflexivity|]. destruct (rstep n t s); cbn [rbind]; auto. Qed.
Lemma rreach_step n s t s' : rreach n s -> rstep n t s = Ok s' -> rreach n s'.
Proof. intros (l & H) E. exists (l ++ [t]). rewrite rruns_app, H. cbn [rbind rruns]. rewrite E. reflexivity. Qed.
Lemma rreach_ind' n (P : rst -> Prop) : P rst0 -> (forall s t s', rreach n s -> P s -> rstep n t s = Ok s' -> P s') -> forall s, rreach n s -> P s.
Proof.
  intros H0 HS s (l & H). revert s H. induction l as [|t l IH] using rev_ind; intros s H; [injection H as <-; exact H0|].
  rewrite rruns_app in H. destruct (rruns n l rst0) as [s1| | |] eqn:E; cbn [rbind rruns] in H; try discriminate. destruct (rstep n t s1) as [s2| | |] eqn:E2; cbn [rbind] in H; try discriminate. injection H as <-.
  exact (HS s1 t s2 (ex_intro _ l E) (IH s1 eq_refl) E2).
Qed.

(** ** Always: the counter is set before the lock, below [n]; the lock is taken only if a call is inside. *)
Record R (n : nat) (s : rst) : Prop := {
  r_cnt : rcnt s = None -> forall t, match rat s t with RIdle | RTest | RInit | RZero => True | _ => False end;
  r_lt : forall c, rcnt s = Some c -> c < n;
  r_res : forall t c, rat s t = RInc c \/ rat s t = RUnlock c \/ rat s t = RDone c -> c < n /\ In c (rlog s);
  r_log : forall c, In c (rlog s) -> c < n;
  r_held : rheld s = true -> exists t, rinside (rat s t) }.
Lemma R_0 n : R n rst0.
Proof. constructor; cbn; try discriminate; try tauto. intros t c [H|[H|H]]; discriminate. Qed.
Lemma R_step n s t : 0 < n -> R n s -> exists s', rstep n t s = Ok s' /\ R n s'.
Proof.
  intros N [C L Q G H]. unfold rstep.
  assert (GEN : forall cn h l p, (cn = rcnt s \/ (cn <> None /\ forall c, cn = Some c -> c < n)) ->
     (rcnt s = None -> match rat s t with RZero => True | _ => cn = None end) ->
     (cn = None -> match p with RIdle | RTest | RInit | RZero => True | _ => False end) ->
     (forall c, p = RInc c \/ p = RUnlock c \/ p = RDone c -> c < n /\ In c l) -> (forall c, In c (rlog s) -> In c l) -> (forall c, In c l -> c < n) ->
     (h = true -> rinside p \/ (h = rheld s /\ ~ rinside (rat s t))) -> R n (mkRst cn h l (rmove s t p))).
  { intros cn h l p E1 E2 E3 E4 E5 E6 E7. constructor; cbn [rcnt rheld rlog rat].
    - intros Z x. destruct (Nat.eq_dec x t) as [->|Nx]; [rewrite rmove_same; exact (E3 Z)|rewrite rmove_other by exact Nx]. apply C. destruct E1 as [<-|(E1 & _)]; [exact Z|contradiction].
    - intros c Z. destruct E1 as [->|(_ & E1)]; [exact (L c Z)|exact (E1 c Z)].
    - intros x c Z. destruct (Nat.eq_dec x t) as [->|Nx]; [rewrite rmove_same in Z; exact (E4 c Z)|rewrite rmove_other in Z by exact Nx]. destruct (Q x c Z) as (Q1 & Q2). auto.
    - exact E6.
    - intros Z. destruct (E7 Z) as [E|(E & NI)]; [exists t; rewrite rmove_same; exact E|]. rewrite E in Z. destruct (H Z) as (x & X). exists x. rewrite rmove_other; [exact X|]. intros ->. contradiction. }
  assert (NP : forall p : rplace, (forall c, p <> RInc c) -> (forall c, p <> RUnlock c) -> (forall c, p <> RDone c) -> forall c, p = RInc c \/ p = RUnlock c \/ p = RDone c -> c < n /\ In c (rlog s)).
  { intros p P1 P2 P3 c [Z|[Z|Z]]; [destruct (P1 c Z)|destruct (P2 c Z)|destruct (P3 c Z)]. }
  destruct (rat s t) as [| | | | | |c|c|c] eqn:A.
  - eexists. split; [reflexivity|]. apply GEN; cbn; auto. apply NP; discriminate.
  - eexists. split; [reflexivity|]. destruct (rcnt s) as [c|] eqn:E; apply GEN; cbn; auto; try discriminate; apply NP; discriminate.
  - eexists. split; [reflexivity|]. apply GEN; cbn; auto; try discriminate. apply NP; discriminate.
  - eexists. split; [reflexivity|]. apply GEN; cbn; auto; try discriminate; [|apply NP; discriminate]. right. split; [discriminate|]. intros c Z. injection Z as <-. exact N.
  - destruct (rheld s) eqn:HE; [exists s; split; [reflexivity|constructor; try assumption; intros _; exact (H eq_refl)]|]. eexists. split; [reflexivity|]. apply GEN; cbn; auto; [| apply NP; discriminate]. intros Z. specialize (C Z t). rewrite A in C. exact C.
  - destruct (rcnt s) as [c|] eqn:E; [|specialize (C eq_refl t); rewrite A in C; contradiction]. eexists. split; [reflexivity|]. apply GEN; cbn; auto; try discriminate.
    + intros c' [Z|[Z|Z]]; try discriminate. injection Z as <-. split; [exact (L c eq_refl)|apply in_or_app; right; left; reflexivity].
    + intros c' Z. apply in_or_app. auto.
    + intros c' Z. apply in_app_iff in Z as [Z|[<-|[]]]; [exact (G c' Z)|exact (L c eq_refl)].
  - destruct (rcnt s) as [d|] eqn:E; [|specialize (C eq_refl t); rewrite A in C; contradiction]. destruct (Nat.eqb_spec n 0) as [Z|Z]; [lia|]. eexists. split; [reflexivity|]. apply GEN; cbn; auto; try discriminate.
    + right. split; [discriminate|]. intros c' Z'. injection Z' as <-. apply Nat.mod_upper_bound. exact Z.
    + intros c' [Z'|[Z'|Z']]; try discriminate. injection Z' as <-. apply (Q t c). auto.
  - eexists. split; [reflexivity|]. apply GEN; cbn; auto; try discriminate.
    + intros Z. specialize (C Z t). rewrite A in C. exact C.
    + intros c' [Z'|[Z'|Z']]; try discriminate. injection Z' as <-. apply (Q t c). auto.
  - eexists. split; [reflexivity|]. apply GEN; cbn; auto; try discriminate. apply NP; discriminate.
Qed.
Lemma rreach_R n s : 0 < n -> rreach n s -> R n s.
Proof. intros N. apply rreach_ind'; [apply R_0|]. intros s1 t s2 _ I E. destruct (R_step n s1 t N I) as (s3 & E3 & I3). congruence. Qed.
Lemma rno_fault n s t : 0 < n -> rreach n s -> exists s', rstep n t s = Ok s'.
Proof. intros N H. destruct (R_step n s t N (rreach_R n s N H)) as (s' & E & _). eauto. Qed.
Lemma rin_range n s t c : 0 < n -> rreach n s -> rat s t = RDone c -> c < n.
Proof. intros N H A. apply (r_res n s (rreach_R n s N H) t c). auto. Qed.

(** ** From a quiet state *)
Record Q (n c0 : nat) (l0 : list nat) (s : rst) : Prop := {
  q_out : forall t, rat s t <> RInit /\ rat s t <> RZero;
  q_lock : forall t u, rinside (rat s t) -> rinside (rat s u) -> t = u;
  q_held : forall t, rinside (rat s t) -> rheld s = true;
  q_ex : rheld s = true -> exists t, rinside (rat s t);
  q_cnt : exists k c, rlog s = l0 ++ turns n c0 k /\ rcnt s = Some c /\
    ((exists t, rat s t = RInc c /\ c = (c0 + (k - 1)) mod n /\ 0 < k) \/ ((forall t d, rat s t <> RInc d) /\ c = (c0 + k) mod n)) }.
Lemma turns_S n c k : turns n c (S k) = turns n c k ++ [(c + k) mod n].
Proof. unfold turns. rewrite seq_S, map_app. reflexivity. Qed.
Lemma Q_start n s : 0 < n -> rreach n s -> rquiet s -> exists c, rcnt s = Some c /\ Q n c (rlog s) s.
Proof.
  intros N H (C & A). destruct (rcnt s) as [c|] eqn:E; [|congruence]. exists c. split; [reflexivity|]. pose proof (rreach_R n s N H) as I.
  assert (NI : forall t, ~ rinside (rat s t)) by (intros t; specialize (A t); destruct (rat s t); cbn; tauto). constructor.
  - intros t. specialize (A t). destruct (rat s t); split; try discriminate; contradiction.
  - intros t u Z. destruct (NI t Z).
  - intros t Z. destruct (NI t Z).
  - intros Z. exact (r_held n s I Z).
  - exists 0, c. split; [unfold turns; cbn; symmetry; apply app_nil_r|]. split; [exact E|]. right. split; [intros t d Z; apply (NI t); rewrite Z; exact Logic.I|]. rewrite Nat.add_0_r. symmetry. apply Nat.mod_small. exact (r_lt n s I c E).
Qed.
Lemma Q_step n c0 l0 s t s' : 0 < n -> Q n c0 l0 s -> rstep n t s = Ok s' -> Q n c0 l0 s'.
Proof.
  intros N [O L HE EX (k & c & LG & CN & CC)] E. unfold rstep in E.
  (* moves that change neither the lock nor the counter nor who is inside *)
  assert (MV : forall p, ~ rinside (rat s t) -> ~ rinside p -> p <> RInit -> p <> RZero -> Q n c0 l0 (mkRst (rcnt s) (rheld s) (rlog s) (rmove s t p))).
  { intros p N1 N2 N3 N4. constructor; cbn [rcnt rheld rlog rat].
    - intros x. destruct (Nat.eq_dec x t) as [->|Nx]; [rewrite rmove_same; auto|rewrite rmove_other by exact Nx; apply O].
    - intros x y X Y. destruct (Nat.eq_dec x t) as [->|Nx]; [rewrite rmove_same in X; contradiction|rewrite rmove_other in X by exact Nx]. destruct (Nat.eq_dec y t) as [->|Ny]; [rewrite rmove_same in Y; contradiction|rewrite rmove_other in Y by exact Ny]. exact (L x y X Y).
    - intros x X. destruct (Nat.eq_dec x t) as [->|Nx]; [rewrite rmove_same in X; contradiction|rewrite rmove_other in X by exact Nx; exact (HE x X)].
    - intros Z. destruct (EX Z) as (x & X). exists x. rewrite rmove_other; [exact X|]. intros ->. contradiction.
    - exists k, c. split; [exact LG|]. split; [exact CN|]. destruct CC as [(x & X & CC)|(X & CC)]; [left|right].
      + exists x. split; [|exact CC]. rewrite rmove_other; [exact X|]. intros ->. apply N1. rewrite X. exact Logic.I.
      + split; [|exact CC]. intros x d. destruct (Nat.eq_dec x t) as [->|Nx]; [rewrite rmove_same; intros ->; apply N2; exact Logic.I|rewrite rmove_other by exact Nx; apply X]. }
  (* moves inside, without touching the lock *)
  assert (IN : forall cn l p, rinside (rat s t) -> rinside p -> (exists k c, l = l0 ++ turns n c0 k /\ cn = Some c /\
      ((p = RInc c /\ c = (c0 + (k - 1)) mod n /\ 0 < k) \/ ((forall d, p <> RInc d) /\ c = (c0 + k) mod n))) -> Q n c0 l0 (mkRst cn (rheld s) l (rmove s t p))).
  { intros cn l p I1 I2 (k' & c' & E1 & E2 & E3). constructor; cbn [rcnt rheld rlog rat].
    - intros x. destruct (Nat.eq_dec x t) as [->|Nx]; [rewrite rmove_same; destruct p; cbn in I2; try contradiction; split; discriminate|rewrite rmove_other by exact Nx; apply O].
    - assert (ONE : forall x, rinside (rmove s t p x) -> x = t) by (intros x X; destruct (Nat.eq_dec x t) as [->|Nx]; [reflexivity|rewrite rmove_other in X by exact Nx; exact (L x t X I1)]). intros x y X Y. rewrite (ONE x X), (ONE y Y). reflexivity.
    - intros x _. exact (HE t I1).
    - intros _. exists t. rewrite rmove_same. exact I2.
    - exists k', c'. split; [exact E1|]. split; [exact E2|]. destruct E3 as [(E3 & E4)|(E3 & E4)]; [left; exists t; rewrite rmove_same; auto|right].
      split; [|exact E4]. intros x d. destruct (Nat.eq_dec x t) as [->|Nx]; [rewrite rmove_same; apply E3|rewrite rmove_other by exact Nx]. intros Z. apply Nx. apply (L x t); [rewrite Z; exact Logic.I|exact I1]. }
  destruct (rat s t) as [| | | | | |r|r|r] eqn:A.
  - injection E as <-. apply MV; cbn; try tauto; discriminate.
  - injection E as <-. rewrite CN. rewrite CN in MV. apply MV; cbn; try tauto; discriminate.
  - destruct (proj1 (O t) A).
  - destruct (proj2 (O t) A).
  - destruct (rheld s) eqn:H; [injection E as <-; constructor; try assumption; [intros x X; rewrite H; reflexivity|intros _; exact (EX eq_refl)|exists k, c; auto]|]. injection E as <-.
    assert (NI : forall x, ~ rinside (rat s x)) by (intros x X; specialize (HE x X); congruence). constructor; cbn [rcnt rheld rlog rat].
    + intros x. destruct (Nat.eq_dec x t) as [->|Nx]; [rewrite rmove_same; split; discriminate|rewrite rmove_other by exact Nx; apply O].
    + assert (ONE : forall x, rinside (rmove s t RRead x) -> x = t) by (intros x X; destruct (Nat.eq_dec x t) as [->|Nx]; [reflexivity|rewrite rmove_other in X by exact Nx; destruct (NI x X)]). intros x y X Y. rewrite (ONE x X), (ONE y Y). reflexivity.
    + reflexivity.
    + intros _. exists t. rewrite rmove_same. exact Logic.I.
    + exists k, c. split; [exact LG|]. split; [exact CN|]. right. destruct CC as [(x & X & _)|(X & CC)]; [destruct (NI x); rewrite X; exact Logic.I|]. split; [|exact CC]. intros x d. destruct (Nat.eq_dec x t) as [->|Nx]; [rewrite rmove_same; discriminate|rewrite rmove_other by exact Nx; apply X].
  - rewrite CN in E. injection E as <-. apply IN; [exact Logic.I|exact Logic.I|]. destruct CC as [(x & X & _)|(X & CC)].
    + exfalso. assert (Z : x = t) by (apply L; [rewrite X; exact Logic.I|rewrite A; exact Logic.I]). subst x. congruence.
    + exists (S k), c. split; [rewrite turns_S, LG, <- app_assoc, CC; reflexivity|]. split; [reflexivity|]. left. split; [reflexivity|]. split; [rewrite CC; f_equal; lia|lia].
  - rewrite CN in E. destruct (Nat.eqb_spec n 0) as [Z|Z]; [lia|]. injection E as <-. apply IN; [exact Logic.I|exact Logic.I|]. destruct CC as [(x & X & CC & KP)|(X & _)]; [|destruct (X t r A)].
    exists k, ((c + 1) mod n). split; [exact LG|]. split; [reflexivity|]. right. split; [discriminate|]. rewrite CC. rewrite Nat.add_mod_idemp_l by lia. f_equal. lia.
  - injection E as <-. assert (ONE : forall x, x <> t -> ~ rinside (rat s x)) by (intros x Nx X; apply Nx; apply L; [exact X|rewrite A; exact Logic.I]). assert (NI : forall x, ~ rinside (rmove s t (RDone r) x)).
    { intros x. destruct (Nat.eq_dec x t) as [->|Nx]; [rewrite rmove_same; cbn; tauto|rewrite rmove_other by exact Nx; exact (ONE x Nx)]. }
    constructor; cbn [rcnt rheld rlog rat].
    + intros x. destruct (Nat.eq_dec x t) as [->|Nx]; [rewrite rmove_same; split; discriminate|rewrite rmove_other by exact Nx; apply O].
    + intros x y X. destruct (NI x X).
    + intros x X. destruct (NI x X).
    + discriminate.
    + exists k, c. split; [exact LG|]. split; [exact CN|]. right. destruct CC as [(x & X & _)|(X & CC)].
      * exfalso. assert (Z : x = t) by (apply L; [rewrite X; exact Logic.I|rewrite A; exact Logic.I]). subst x. congruence.
      * split; [|exact CC]. intros x d Z. destruct (NI x). rewrite Z. exact Logic.I.
  - injection E as <-. apply MV; cbn; try tauto; discriminate.
Qed.
Lemma Q_runs n c0 l0 l : 0 < n -> forall s s', Q n c0 l0 s -> rruns n l s = Ok s' -> Q n c0 l0 s'.
Proof.
  intros N. induction l as [|t l IH]; intros s s' I H; cbn [rruns] in H; [injection H as <-; exact I|]. destruct (rstep n t s) as [s1| | |] eqn:E; cbn [rbind] in H; try discriminate. exact (IH s1 s' (Q_step n c0 l0 s t s1 N I E) H).
Qed.
Lemma quiet_turns n s l s' : 0 < n -> rreach n s -> rquiet s -> rruns n l s = Ok s' ->
  (forall t u, rinside (rat s' t) -> rinside (rat s' u) -> t = u) /\ exists c k, rcnt s = Some c /\ rlog s' = rlog s ++ turns n c k.
Proof.
  intros N H QU R1. destruct (Q_start n s N H QU) as (c & C & I). pose proof (Q_runs n c (rlog s) l N s s' I R1) as I'. split; [exact (q_lock _ _ _ _ I')|]. destruct (q_cnt _ _ _ _ I') as (k & c' & LG & _). exists c, k. auto.
Qed.
(** The first call alone. *)
Definition first (n t : nat) : rst := mkRst (Some (1 mod n)) false [0] (fun x => if Nat.eqb x t then RDone 0 else RIdle).
Lemma first_run n t : 0 < n -> exists s, rruns n (repeat t 8) rst0 = Ok s /\ rquiet s /\ rlog s = [0] /\ rcnt s = Some (1 mod n) /\ rat s t = RDone 0.
Proof.
  intros N. cbn [repeat rruns]. unfold rstep at 1. cbn [rst0 rat rcnt rheld rlog rbind]. do 5 (unfold rstep at 1; cbn [rst0 rat rcnt rheld rlog]; rewrite rmove_same; cbn [rbind app Nat.add]). unfold rstep at 1; cbn [rat rcnt rheld rlog]; rewrite rmove_same.
  destruct (Nat.eqb_spec n 0) as [Z|_]; [lia|]. cbn [rbind]. unfold rstep at 1. cbn [rat rcnt rheld rlog]. rewrite rmove_same. cbn [rbind]. eexists. split; [reflexivity|]. split; [|split; [reflexivity|split; [reflexivity|cbn [rat]; apply rmove_same]]].
  split; [discriminate|]. intros x. cbn [rat]. destruct (Nat.eq_dec x t) as [->|Nx]; [rewrite rmove_same; exact Logic.I|]. do 8 (rewrite rmove_other by exact Nx; cbn [rat]). exact Logic.I.
Qed.
Lemma turns_cons n k : 0 < n -> 0 :: turns n (1 mod n) k = turns n 0 (S k).
Proof.
  intros N. unfold turns. cbn [seq map]. change (0 + 0) with 0. rewrite (Nat.mod_small 0 n) by lia. f_equal. rewrite <- seq_shift, map_map. apply map_ext. intros i. rewrite Nat.add_mod_idemp_l by lia. reflexivity.
Qed.
Lemma first_alone n t l s s' : 0 < n -> rruns n (repeat t 8) rst0 = Ok s -> rruns n l s = Ok s' ->
  (forall u v, rinside (rat s' u) -> rinside (rat s' v) -> u = v) /\ rlog s' = turns n 0 (length (rlog s')).
Proof.
  intros N F H. destruct (first_run n t N) as (s1 & F1 & QU & LG & CN & _). assert (s1 = s) by congruence. subst s1. destruct (quiet_turns n s l s' N (ex_intro _ _ F) QU H) as (X & c & k & C & E). split; [exact X|].
  rewrite CN in C. injection C as <-. rewrite E, LG. cbn [app]. rewrite (turns_cons n k N). replace (length (turns n 0 (S k))) with (S k) by (unfold turns; rewrite map_length, seq_length; reflexivity). reflexivity.
Qed.
(** Fairness of the sequence. *)
Lemma given_app i l l' : given i (l ++ l') = given i l + given i l'.
Proof. unfold given. apply count_occ_app. Qed.
Lemma turns_given n i : i < n -> forall k, n * given i (turns n 0 k) + i < k + n /\ k <= n * given i (turns n 0 k) + i.
Proof.
  intros L. induction k as [|k (IH1 & IH2)]; [cbn; lia|]. rewrite turns_S, given_app. cbn [Nat.add]. set (g := given i (turns n 0 k)) in *. unfold given. cbn [count_occ].
  pose proof (Nat.div_mod k n ltac:(lia)) as DM. pose proof (Nat.mod_upper_bound k n ltac:(lia)) as UB. destruct (Nat.eq_dec (k mod n) i) as [E|E].
  - assert (G1 : k / n <= g) by (apply (Nat.mul_le_mono_pos_l _ _ n); lia). assert (G2 : g < S (k / n)) by (apply (Nat.mul_lt_mono_pos_l n); lia).
    assert (G3 : g = k / n) by lia. rewrite <- G3 in DM. rewrite Nat.mul_add_distr_l, Nat.mul_1_r. lia.
  - rewrite Nat.add_0_r. assert (k <> n * g + i); [|lia]. intros Z. apply E. rewrite Z, Nat.mul_comm, Nat.add_comm, Nat.mod_add by lia. apply Nat.mod_small. exact L.
Qed.
Lemma turns_fair n k i j : i < n -> j < n -> given i (turns n 0 k) <= given j (turns n 0 k) + 1.
Proof. intros I J. destruct (turns_given n i I k). destruct (turns_given n j J k). nia. Qed.

(** ** The race of the first calls *)
(** Threads 0 .. k-1 make the test, then each finishes alone. *)
Definition race (k : nat) : list nat := concat (map (fun t => [t; t]) (seq 0 k)) ++ concat (map (fun t => repeat t 6) (seq 0 k)).
Lemma tests n k : forall s, (forall t, rat s t = RIdle) -> rcnt s = None -> exists s', rruns n (concat (map (fun t => [t; t]) (seq 0 k))) s = Ok s' /\ rcnt s' = None /\ rlog s' = rlog s /\ forall t, rat s' t = if t <? k then RInit else RIdle.
Proof.
  induction k as [|k IH]; intros s A C; [exists s; cbn; auto|]. destruct (IH s A C) as (s1 & E & C1 & L1 & A1). rewrite seq_S, map_app, concat_app, rruns_app, E. cbn [Nat.add map concat app rbind rruns].
  unfold rstep at 1. rewrite A1, Nat.ltb_irrefl. cbn [rbind]. unfold rstep. cbn [rat]. rewrite rmove_same. cbn [rcnt rheld rlog rbind]. rewrite C1. eexists. split; [reflexivity|]. cbn [rcnt rlog rat]. split; [reflexivity|]. split; [exact L1|].
  intros t. destruct (Nat.eq_dec t k) as [->|Nt]; [rewrite rmove_same; destruct (Nat.ltb_spec k (S k)); [reflexivity|lia]|]. rewrite rmove_other by exact Nt. cbn [rat]. rewrite rmove_other by exact Nt. rewrite A1. destruct (Nat.ltb_spec t k), (Nat.ltb_spec t (S k)); try reflexivity; lia.
Qed.
Lemma finish n t s : 0 < n -> rat s t = RInit -> exists s', rruns n (repeat t 6) s = Ok s' /\ rlog s' = rlog s ++ [0] /\ rat s' t = RDone 0 /\ forall x, x <> t -> rat s' x = rat s x.
Proof.
  intros N A. cbn [repeat rruns]. unfold rstep at 1. rewrite A. cbn [rbind]. do 3 (unfold rstep at 1; cbn [rat rcnt rheld rlog]; rewrite rmove_same; cbn [rbind]).
  unfold rstep at 1; cbn [rat rcnt rheld rlog]; rewrite rmove_same. destruct (Nat.eqb_spec n 0) as [Z|_]; [lia|]. cbn [rbind]. unfold rstep at 1. cbn [rat rcnt rheld rlog]. rewrite rmove_same. cbn [rbind].
  eexists. split; [reflexivity|]. cbn [rlog rat]. split; [reflexivity|]. split; [apply rmove_same|]. intros x Nx. do 6 (rewrite rmove_other by exact Nx; cbn [rat]). reflexivity.
Qed.
Lemma finishes n k : 0 < n -> forall s, (forall t, t < k -> rat s t = RInit) -> exists s', rruns n (concat (map (fun t => repeat t 6) (seq 0 k))) s = Ok s' /\ rlog s' = rlog s ++ repeat 0 k /\ (forall t, t < k -> rat s' t = RDone 0) /\ (forall t, k <= t -> rat s' t = rat s t).
Proof.
  intros N. induction k as [|k IH]; intros s A; [exists s; cbn; rewrite app_nil_r; repeat split; lia|]. destruct (IH s (fun t L => A t (Nat.lt_lt_succ_r _ _ L))) as (s1 & E & L1 & D1 & O1).
  destruct (finish n k s1 N) as (s2 & E2 & L2 & D2 & O2); [rewrite O1 by lia; apply A; lia|]. exists s2. rewrite seq_S, map_app, concat_app, rruns_app, E. cbn [Nat.add map concat rbind]. rewrite app_nil_r, E2. split; [reflexivity|]. split.
  - rewrite L2, L1, <- app_assoc. f_equal. clear. induction k as [|k IH]; [reflexivity|]. cbn [repeat app] in *. rewrite IH. reflexivity.
  - split; [intros t L; destruct (Nat.eq_dec t k) as [->|Nt]; [exact D2|rewrite (O2 t Nt); apply D1; lia]|]. intros t L. rewrite (O2 t) by lia. apply O1. lia.
Qed.
Lemma all_zero n k : 0 < n -> exists s, rreach n s /\ rlog s = repeat 0 k /\ forall t, t < k -> rat s t = RDone 0.
Proof.
  intros N. destruct (tests n k rst0 (fun _ => eq_refl) eq_refl) as (s1 & E1 & C1 & L1 & A1). destruct (finishes n k N s1) as (s2 & E2 & L2 & D2 & _); [intros t L; rewrite A1; destruct (Nat.ltb_spec t k); [reflexivity|lia]|].
  exists s2. split; [exists (race k); unfold race; rewrite rruns_app, E1; exact E2|]. split; [rewrite L2, L1; reflexivity|exact D2].
Qed.
(** Two threads between the lock and the unlock. *)
Lemma both_inside n : 0 < n -> exists s, rreach n s /\ rinside (rat s 0) /\ rinside (rat s 1).
Proof.
  intros N. assert (E : exists s, rruns n [0; 0; 1; 1; 0; 0; 0; 1; 1; 1] rst0 = Ok s /\ rat s 0 = RRead /\ rat s 1 = RRead) by (eexists; split; [vm_compute; reflexivity|split; reflexivity]).
  destruct E as (s & E & A & B). exists s. split; [exists [0; 0; 1; 1; 0; 0; 0; 1; 1; 1]; exact E|]. rewrite A, B. split; exact Logic.I.
Qed.
(** No node: every call ends in a division by zero. *)
Lemma no_node s t c : rreach 0 s -> rat s t <> RDone c.
Proof.
  intros H. assert (G : forall t, match rat s t with RUnlock _ | RDone _ => False | _ => True end); [|specialize (G t); intros Z; rewrite Z in G; exact G].
  clear t c. revert s H. apply (rreach_ind' 0 (fun s => forall t, match rat s t with RUnlock _ | RDone _ => False | _ => True end)); [intros t; exact Logic.I|].
  intros s u s' _ IH E t. unfold rstep in E. assert (MV : forall p, (match p with RUnlock _ | RDone _ => False | _ => True end) -> match rmove s u p t with RUnlock _ | RDone _ => False | _ => True end).
  { intros p P. destruct (Nat.eq_dec t u) as [->|Nt]; [rewrite rmove_same; exact P|rewrite rmove_other by exact Nt; apply IH]. }
  pose proof (IH u) as IU. destruct (rat s u); try contradiction; try (injection E as <-; cbn [rat]; apply MV; exact Logic.I).
  - injection E as <-. cbn [rat]. apply MV. destruct (rcnt s); exact Logic.I.
  - destruct (rheld s); injection E as <-; [apply IH|cbn [rat]; apply MV; exact Logic.I].
  - destruct (rcnt s); [injection E as <-; cbn [rat]; apply MV; exact Logic.I|discriminate].
  - destruct (rcnt s); discriminate.
Qed.

(** ** Every call can return *)
Lemma rruns_R n l : 0 < n -> forall s s', R n s -> rruns n l s = Ok s' -> R n s'.
Proof.
  intros N. induction l as [|t l IH]; intros s s' I H; cbn [rruns] in H; [injection H as <-; exact I|]. destruct (R_step n s t N I) as (s1 & E & I1). rewrite E in H. cbn [rbind] in H. exact (IH s1 s' I1 H).
Qed.
Definition leaves (n t : nat) (s : rst) : Prop := exists l s', rruns n l s = Ok s' /\ (exists c, rat s' t = RDone c) /\ rheld s' = false /\ forall x, x <> t -> rat s' x = rat s x.
Lemma leaves_step n t s s1 : rstep n t s = Ok s1 -> (forall x, x <> t -> rat s1 x = rat s x) -> leaves n t s1 -> leaves n t s.
Proof.
  intros E O (l & s' & H & D & U & O'). exists (t :: l), s'. cbn [rruns]. rewrite E. cbn [rbind]. split; [exact H|]. split; [exact D|]. split; [exact U|]. intros x Nx. rewrite (O' x Nx). exact (O x Nx).
Qed.
Lemma inside_leaves n t s : 0 < n -> R n s -> rinside (rat s t) -> leaves n t s.
Proof.
  intros N.
  assert (U : forall s c, rat s t = RUnlock c -> leaves n t s).
  { intros s0 c A. exists [t]. cbn [rruns]. unfold rstep. rewrite A. cbn [rbind]. eexists. split; [reflexivity|]. cbn [rat rheld]. split; [exists c; apply rmove_same|]. split; [reflexivity|]. intros x Nx. apply rmove_other. exact Nx. }
  assert (In1 : forall s c, R n s -> rat s t = RInc c -> leaves n t s).
  { intros s0 c I A. destruct (rcnt s0) as [d|] eqn:E; [|pose proof (r_cnt n s0 I E t) as X; rewrite A in X; contradiction].
    eapply leaves_step; [unfold rstep; rewrite A, E; destruct (Nat.eqb_spec n 0); [lia|reflexivity]|cbn [rat]; intros x Nx; apply rmove_other; exact Nx|]. apply (U _ c). cbn [rat]. apply rmove_same. }
  intros I A. destruct (rat s t) as [| | | | | |c|c|c] eqn:P; cbn in A; try contradiction.
  - destruct (R_step n s t N I) as (s1 & E1 & I1). pose proof E1 as E2. unfold rstep in E2. rewrite P in E2. destruct (rcnt s) as [d|] eqn:E; [|discriminate]. injection E2 as E2.
    eapply leaves_step; [exact E1|subst s1; cbn [rat]; intros x Nx; apply rmove_other; exact Nx|]. apply (In1 s1 d I1). subst s1. cbn [rat]. apply rmove_same.
  - exact (In1 s c I P).
  - exact (U s c P).
Qed.
Lemma lock_leaves n t s : 0 < n -> R n s -> rat s t = RLock -> exists l s', rruns n l s = Ok s' /\ exists c, rat s' t = RDone c.
Proof.
  intros N.
  assert (F : forall s, R n s -> rat s t = RLock -> rheld s = false -> exists l s', rruns n l s = Ok s' /\ exists c, rat s' t = RDone c).
  { intros s0 I A H. destruct (R_step n s0 t N I) as (s1 & E1 & I1). pose proof E1 as E2. unfold rstep in E2. rewrite A, H in E2. injection E2 as E2.
    destruct (inside_leaves n t s1 N I1) as (l & s' & H1 & H2 & _); [subst s1; cbn [rat]; rewrite rmove_same; exact Logic.I|]. exists (t :: l), s'. cbn [rruns]. rewrite E1. cbn [rbind]. split; assumption. }
  intros I A. destruct (rheld s) eqn:H; [|exact (F s I A H)]. destruct (r_held n s I H) as (u & U). destruct (inside_leaves n u s N I U) as (l & s1 & H1 & _ & H2 & H3).
  destruct (F s1 (rruns_R n l N s s1 I H1)) as (l2 & s2 & E2 & D); [|exact H2|].
  - rewrite H3; [exact A|]. intros ->. rewrite A in U. exact U.
  - exists (l ++ l2), s2. rewrite rruns_app, H1. cbn [rbind]. split; assumption.
Qed.
Lemma rprogress n s t : 0 < n -> rreach n s -> rat s t <> RIdle -> exists l s' c, rruns n l s = Ok s' /\ rat s' t = RDone c.
Proof.
  intros N H A. apply (rreach_R n s N) in H.
  assert (G : exists l s', rruns n l s = Ok s' /\ exists c, rat s' t = RDone c); [|destruct G as (l & s' & E & c & D); exists l, s', c; auto].
  assert (ST : forall s p, R n s -> rstep n t s = Ok p -> (R n p -> exists l s', rruns n l p = Ok s' /\ exists c, rat s' t = RDone c) -> exists l s', rruns n l s = Ok s' /\ exists c, rat s' t = RDone c).
  { intros s0 p I E K. destruct (R_step n s0 t N I) as (s1 & E1 & I1). assert (s1 = p) by congruence. subst s1. destruct (K I1) as (l & s' & L & D). exists (t :: l), s'. cbn [rruns]. rewrite E. cbn [rbind]. auto. }
  assert (Z : forall s, R n s -> rat s t = RZero -> exists l s', rruns n l s = Ok s' /\ exists c, rat s' t = RDone c).
  { intros s0 I P. eapply ST; [exact I|unfold rstep; rewrite P; reflexivity|]. intros I1. apply (lock_leaves n t _ N I1). cbn [rat]. apply rmove_same. }
  assert (In0 : forall s, R n s -> rat s t = RInit -> exists l s', rruns n l s = Ok s' /\ exists c, rat s' t = RDone c).
  { intros s0 I P. eapply ST; [exact I|unfold rstep; rewrite P; reflexivity|]. intros I1. apply (Z _ I1). cbn [rat]. apply rmove_same. }
  destruct (rat s t) as [| | | | | |c|c|c] eqn:P.
  - contradiction.
  - eapply ST; [exact H|unfold rstep; rewrite P; reflexivity|]. intros I1. destruct (rcnt s); [apply (lock_leaves n t _ N I1)|apply (In0 _ I1)]; cbn [rat]; apply rmove_same.
  - exact (In0 s H P).
  - exact (Z s H P).
  - exact (lock_leaves n t s N H P).
  - destruct (inside_leaves n t s N H) as (l & s' & E & D & _); [rewrite P; exact Logic.I|]. eauto.
  - destruct (inside_leaves n t s N H) as (l & s' & E & D & _); [rewrite P; exact Logic.I|]. eauto.
  - destruct (inside_leaves n t s N H) as (l & s' & E & D & _); [rewrite P; exact Logic.I|]. eauto.
  - exists [], s. cbn. eauto.
Qed.
