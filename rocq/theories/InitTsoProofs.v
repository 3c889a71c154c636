(** Start-up with store buffers: invariant and lemmas behind C78. *)
From Verif Require Import Res InitModel InitSpec InitProofs InitMore InitTsoModel InitTsoSpec.
From Coq Require Import List Bool Arith Lia.
Import ListNotations.

(** ** The state only grows *)
Lemma pstep_state m i x x' : pstep m i x = Ok x' -> fst x' = fst x \/ exists w, i = State w /\ fst x' = w.
Proof.
  destruct i as [d|w|w|]; cbn [pstep]; intros E.
  - destruct d; try (injection E as <-; left; reflexivity). destruct (existsb _ _); [injection E as <-; left; reflexivity|discriminate].
  - injection E as <-. right. exists w. split; reflexivity.
  - destruct (Nat.eqb (fst x) w); [injection E as <-; left; reflexivity|discriminate].
  - destruct (nodes m <=? max_node m); [injection E as <-; left; reflexivity|discriminate].
Qed.
Lemma rest_states m w : In (State w) (numa_phase m ++ [State 3]) -> w = 3.
Proof.
  intros Q. apply in_app_iff in Q as [Q|[Q|[]]]; [|injection Q as <-; reflexivity]. unfold numa_phase in Q. destruct (hw m); [|destruct Q]. cbn [app] in Q.
  destruct Q as [Q|[Q|Q]]; [discriminate|discriminate|]. apply in_app_iff in Q as [Q|[Q|[]]]; [|discriminate]. destruct (nodes m <=? 1); [destruct Q as [Q|[]]; discriminate|].
  apply in_map_iff in Q as (y & Q & _). discriminate.
Qed.
Lemma after_le3 m n v d : after m n = Ok (v, d) -> v <= 3.
Proof.
  intros H. destruct (Nat.le_gt_cases v 3) as [L|L]; [exact L|]. exfalso. unfold after in H. apply (prun_state m _ v _ _ H); [cbn; lia| |reflexivity].
  intros K. assert (K' : In (State v) (section m)) by (rewrite <- (firstn_skipn n (section m)); apply in_or_app; left; exact K).
  rewrite section_parts in K'. apply in_app_iff in K' as [K'|K']; [|apply rest_states in K'; lia].
  unfold part1 in K'. destruct (hw m); cbn in K'; repeat (destruct K' as [K'|K']; [try discriminate K'; injection K' as K'; lia|]); exact K'.
Qed.
Lemma part1_state m n w v d : nth_error (part1 m) n = Some (State w) -> prun m (firstn n (part1 m)) (0, []) = Ok (v, d) -> v <= w.
Proof.
  unfold part1. destruct (hw m); cbn [app].
  - do 9 (destruct n as [|n]; [cbn; intros A B; try discriminate A; injection A as <-; injection B as <- _; lia|]). intros A. destruct n; discriminate.
  - do 8 (destruct n as [|n]; [cbn; intros A B; try discriminate A; injection A as <-; injection B as <- _; lia|]). intros A. destruct n; discriminate.
Qed.
Lemma state_up m n v d w : after m n = Ok (v, d) -> nth_error (section m) n = Some (State w) -> v <= w.
Proof.
  intros H E. rewrite section_parts in E. destruct (Nat.le_gt_cases (length (part1 m)) n) as [L|L].
  - rewrite nth_error_app2 in E by exact L. apply nth_error_In, rest_states in E. subst w. exact (after_le3 _ _ _ _ H).
  - rewrite nth_error_app1 in E by exact L. apply (part1_state m n w v d E). unfold after in H. rewrite section_parts, firstn_app in H.
    replace (n - length (part1 m)) with 0 in H by lia. cbn [firstn] in H. rewrite app_nil_r in H. exact H.
Qed.
Lemma after_next m n x x' : after m n = Ok x -> after m (S n) = Ok x' -> fst x <= fst x' /\ exists e, snd x' = snd x ++ e.
Proof.
  intros H H'. destruct (nth_error (section m) n) as [i|] eqn:E.
  - rewrite (after_S _ _ _ E), H in H'. cbn [rbind] in H'. split; [|exact (pstep_grows _ _ _ _ H')].
    destruct (pstep_state _ _ _ _ H') as [Q|(w & -> & Q)]; [lia|]. rewrite Q. destruct x as (v, d). exact (state_up _ _ _ _ _ H E).
  - apply nth_error_None in E. unfold after in *. rewrite firstn_all2 in H by lia. rewrite firstn_all2 in H' by lia. rewrite H in H'. injection H' as <-.
    split; [lia|]. exists []. symmetry. apply app_nil_r.
Qed.
Lemma after_mono m a : mach_ok m -> forall b x x', a <= b -> after m a = Ok x -> after m b = Ok x' -> fst x <= fst x' /\ exists e, snd x' = snd x ++ e.
Proof.
  intros OK b x x' L H. revert x'. induction L as [|b L IH]; intros x' H'.
  - rewrite H in H'. injection H' as <-. split; [lia|]. exists []. symmetry. apply app_nil_r.
  - destruct (after_ok m b OK) as (v & d & E & _). destruct (IH _ E) as (I1 & e1 & I2). destruct (after_next _ _ _ _ E H') as (J1 & e2 & J2).
    split; [lia|]. exists (e1 ++ e2). rewrite J2, I2. rewrite app_assoc. reflexivity.
Qed.

(** ** Where a thread may be, given what it reads *)
Definition pick_fine (m : machine) (v : nat) (n : option nat) : Prop :=
  n = Some (max_node m) /\ hw m = true \/ n = Some 0 /\ hw m = false \/ v = 3 /\ hw m = true /\ (forall i, n = Some i -> i < nodes m).
Record fine (m : machine) (x : nat * list doing) (p : place) : Prop := {
  f_start : started p -> 2 <= fst x;
  f_pick : forall q, p = Pick q -> pick_fine m (fst x) q;
  f_st : forall f, p = St1 f \/ p = St2 f -> hw m = true;
  f_got : forall id, p = Got id -> In (Source id) (snd x) }.
Lemma fine_mono m a b x x' p : mach_ok m -> a <= b -> after m a = Ok x -> after m b = Ok x' -> fine m x p -> fine m x' p.
Proof.
  intros OK L H H' [A B C D]. destruct (after_mono m a OK b x x' L H H') as (M1 & e & M2). constructor.
  - intros S. apply A in S. lia.
  - intros q E. destruct (B q E) as [P|[P|(P & Q)]]; [left; exact P|right; left; exact P|]. right. right. split; [|exact Q].
    destruct x' as (v', d'). pose proof (after_le3 _ _ _ _ H'). cbn [fst] in *. lia.
  - exact C.
  - intros id E. rewrite M2. apply in_or_app. left. exact (D id E).
Qed.
(** The steps outside the section are those of InitModel.v: a state in which another thread is inside the section. *)
Definition twin (x : nat * list doing) (t : nat) (p : place) (j : nat) : ist :=
  mkIst (fst x) (Some (S t)) (snd x) (fun u => if Nat.eqb u t then p else if Nat.eqb u (S t) then In_ j else Out).
Lemma twin_J m x t p j : after m j = Ok x -> j <= length (section m) -> ~ inside_init p -> fine m x p -> J m (twin x t p j) j.
Proof.
  intros H L N [A B C D].
  assert (AT : forall u, at_ (twin x t p j) u = p \/ at_ (twin x t p j) u = In_ j /\ u = S t \/ at_ (twin x t p j) u = Out).
  { intros u. cbn [twin at_]. destruct (Nat.eqb u t); [left; reflexivity|]. destruct (Nat.eqb_spec u (S t)) as [E|E]; [right; left; split; [reflexivity|exact E]|right; right; reflexivity]. }
  constructor.
  - rewrite H. destruct x; reflexivity.
  - exact L.
  - discriminate.
  - intros u. cbn [twin glock]. split.
    + intros E. injection E as <-. cbn [twin at_]. replace (Nat.eqb (S t) t) with false by (symmetry; apply Nat.eqb_neq; lia). rewrite Nat.eqb_refl. exact Logic.I.
    + intros I. destruct (AT u) as [E|[(E & ->)|E]]; [rewrite E in I; contradiction|reflexivity|rewrite E in I; contradiction].
  - intros u k E. destruct (AT u) as [Q|[(Q & _)|Q]]; rewrite Q in E; [subst p; exfalso; exact (N Logic.I)|congruence|discriminate].
  - intros u E. destruct (AT u) as [Q|[(Q & _)|Q]]; rewrite Q in E; [subst p; exfalso; exact (N Logic.I)|discriminate|discriminate].
  - intros u E. destruct (AT u) as [Q|[(Q & _)|Q]]; rewrite Q in E; [subst p; exfalso; exact (N Logic.I)|discriminate|discriminate].
  - intros u E. destruct (AT u) as [Q|[(Q & _)|Q]]; rewrite Q in E; [exact (A E)|contradiction|contradiction].
  - intros u q E. destruct (AT u) as [Q|[(Q & _)|Q]]; rewrite Q in E; [exact (B q E)|discriminate|discriminate].
  - intros u f E. destruct (AT u) as [Q|[(Q & _)|Q]]; rewrite Q in E; [exact (C f E)|destruct E; discriminate|destruct E; discriminate].
  - intros u id E. destruct (AT u) as [Q|[(Q & _)|Q]]; rewrite Q in E; [exact (D id E)|discriminate|discriminate].
Qed.
Lemma twin_step m x t p j o r : ~ inside_init p -> p <> Lock ->
  istep m (Go t o r) (twin x t p j) = rbind (local m o r x p) (fun q => Ok (move (twin x t p j) t q)) \/
  (p = Out \/ exists id, p = Got id) /\ local m o r x p = Ok p.
Proof.
  intros N NL. cbn [istep]. assert (E : at_ (twin x t p j) t = p) by (cbn [twin at_]; rewrite Nat.eqb_refl; reflexivity). rewrite E.
  destruct p as [| | | |k| | |f|f|q|id]; try (exfalso; exact (N Logic.I)); cbn [local rbind].
  - right. split; [left; reflexivity|reflexivity].
  - left. reflexivity.
  - contradiction.
  - left. unfold was_done, seen. cbn [twin glog]. destruct (existsb (doing_eqb EggChain) (snd x)); reflexivity.
  - left. reflexivity.
  - left. cbn [twin gstate]. reflexivity.
  - left. destruct (hw m && robin m && Nat.eqb (nodes m) 0); [reflexivity|]. cbv zeta. unfold was_done, seen. cbn [twin glog].
    destruct (_ <=? max_node m); [|reflexivity]. destruct (existsb _ (snd x)); reflexivity.
  - right. split; [right; exists id; reflexivity|reflexivity].
Qed.
Definition robin_fine (m : machine) (v : nat) : Prop := hw m = false \/ robin m = false \/ (v = 3 /\ nodes m <> 0).
Lemma local_ok m x p j o r : mach_ok m -> after m j = Ok x -> j <= length (section m) -> ~ inside_init p -> p <> Lock -> fine m x p ->
  (forall i, o = Some i -> i < nodes m) -> (nodes m = 0 \/ r < nodes m) ->
  (exists q, local m o r x p = Ok q /\ ~ inside_init q /\ fine m x q) \/ (local m o r x p = UB /\ ~ robin_fine m (fst x)).
Proof.
  intros OK H L N NL F VO VR. destruct (twin_step m x 0 p j o r N NL) as [E|(PO & E)].
  - destruct (J_step m (twin x 0 p j) j (Go 0 o r) OK (conj VO VR) (twin_J m x 0 p j H L N F)) as [(s' & n' & S & I & _)|(S & R & _)].
    + left. rewrite E in S. destruct (local m o r x p) as [q| | |] eqn:LQ; cbn [rbind] in S; try discriminate. injection S as S. exists q.
      assert (A0 : at_ s' 0 = q) by (rewrite <- S; apply move_same). assert (G0 : gstate s' = fst x) by (rewrite <- S; reflexivity).
      assert (D0 : glog s' = snd x) by (rewrite <- S; reflexivity). assert (K0 : glock s' = Some 1) by (rewrite <- S; reflexivity).
      split; [reflexivity|]. split.
      * rewrite <- A0. intros I0. apply (j_lock _ _ _ I) in I0. rewrite K0 in I0. discriminate.
      * constructor.
        -- intros ST. rewrite <- G0. apply (j_start _ _ _ I 0). rewrite A0. exact ST.
        -- intros z Z. rewrite <- G0. rewrite <- A0 in Z. exact (j_pick _ _ _ I 0 z Z).
        -- intros f Z. rewrite <- A0 in Z. exact (j_st _ _ _ I 0 f Z).
        -- intros id Z. rewrite <- D0. rewrite <- A0 in Z. exact (j_got _ _ _ I 0 id Z).
    + right. rewrite E in S. destruct (local m o r x p) as [q| | |] eqn:LQ; cbn [rbind] in S; try discriminate. split; [reflexivity|]. exact R.
  - left. exists p. split; [exact E|]. split; assumption.
Qed.

(** ** Waiting stores of the thread in the section *)
Inductive waits (m : machine) : nat -> nat -> list wr -> Prop :=
| w_nil : forall k n, k <= n -> after m k = after m n -> waits m k n []
| w_cons : forall k j n x w b, k <= j -> after m k = Ok x -> w <> WFree -> after m j = Ok (apply x w) -> waits m j n b -> waits m k n (w :: b).
Lemma waits_le m k n b : waits m k n b -> k <= n.
Proof. induction 1; lia. Qed.
Lemma waits_view m k n b x : waits m k n b -> after m k = Ok x -> after m n = Ok (fold_left apply b x).
Proof.
  intros W. revert x. induction W as [k n L E|k j n y w b L E NW E2 W IH]; intros x H; cbn [fold_left].
  - rewrite <- E. exact H.
  - rewrite H in E. injection E as <-. apply IH. exact E2.
Qed.
Lemma waits_stay m k n n' b : waits m k n b -> n <= n' -> after m n' = after m n -> waits m k n' b.
Proof.
  intros W L E. induction W as [k n K E1|k j n y w b K E1 NW E2 W IH].
  - constructor; [lia|congruence].
  - apply (w_cons m k j n' y w b K E1 NW E2). apply IH; assumption.
Qed.
Lemma waits_push m k n n' b x w : waits m k n b -> n <= n' -> w <> WFree -> after m n = Ok x -> after m n' = Ok (apply x w) -> waits m k n' (b ++ [w]).
Proof.
  intros W L NW H H'. induction W as [k n K E1|k j n y u b K E1 NU E2 W IH]; cbn [app].
  - apply (w_cons m k n' n' x w []); [lia|congruence|exact NW|exact H'|]. constructor; [lia|reflexivity].
  - apply (w_cons m k j n' y u _ K E1 NU E2). apply IH; assumption.
Qed.
Lemma waits_free m k n b : waits m k n b -> ~ In WFree b.
Proof. induction 1 as [|k j n x w b K E NW E2 W IH]; cbn; [tauto|]. intros [Q|Q]; [apply NW; exact Q|exact (IH Q)]. Qed.
(** What an instruction issues is its effect. *)
Lemma issue_ok m n i x : mach_ok m -> after m n = Ok x -> nth_error (section m) n = Some i ->
  exists l, issue m i x = Ok l /\ ((l = [] /\ after m (S n) = Ok x) \/ exists w, l = [w] /\ w <> WFree /\ after m (S n) = Ok (apply x w)).
Proof.
  intros OK H E. destruct (after_ok m (S n) OK) as (v & d & A & _). pose proof A as A0. rewrite (after_S _ _ _ E), H in A. cbn [rbind] in A.
  destruct i as [q|w|w|]; cbn [issue pstep] in *.
  - destruct q as [| | |id| | |];
      try (exists [WDo ConfigDefaults] || exists [WDo EggChain]; split; [reflexivity|]);
      try (eexists; split; [reflexivity|]; right; eexists; split; [reflexivity|]; split; [discriminate|]; rewrite A0; f_equal; injection A as <- <-; reflexivity).
    all: try (right; eexists; split; [reflexivity|]; split; [discriminate|]; rewrite A0; f_equal; injection A as <- <-; reflexivity).
    unfold seen. destruct (existsb (doing_eqb EggChain) (snd x)); [|discriminate]. eexists. split; [reflexivity|]. right. eexists. split; [reflexivity|]. split; [discriminate|].
    rewrite A0. f_equal. injection A as <- <-. reflexivity.
  - eexists. split; [reflexivity|]. right. eexists. split; [reflexivity|]. split; [discriminate|]. rewrite A0. f_equal. injection A as <- <-. reflexivity.
  - destruct (Nat.eqb (fst x) w); [|discriminate]. exists []. split; [reflexivity|]. left. split; [reflexivity|]. rewrite A0. f_equal. injection A as E1. symmetry. exact E1.
  - destruct (nodes m <=? max_node m); [|discriminate]. exists []. split; [reflexivity|]. left. split; [reflexivity|]. rewrite A0. f_equal. injection A as E1. symmetry. exact E1.
Qed.

(** ** The invariant: [k] instructions of the section are in memory, [n] are executed *)
Definition stage (m : machine) (n : nat) (p : place) : Prop :=
  match p with Check => n = 0 \/ n = length (section m) | In_ j => j = n | _ => n = length (section m) end.
Definition tail_of (p : place) : list wr := match p with Check | In_ _ | Unlock => [] | _ => [WFree] end.
Record TI (m : machine) (s : tst) (k n : nat) : Prop := {
  ti_mem : after m k = Ok (t_state s, t_log s);
  ti_len : n <= length (section m);
  ti_in : forall t, inside_init (t_at s t) -> t_lock s = Some t;
  ti_others : forall t, t_lock s <> Some t -> t_buf s t = [];
  ti_none : t_lock s = None -> k <= n /\ after m k = after m n /\ (n = 0 \/ n = length (section m));
  ti_own : forall t, t_lock s = Some t -> stage m n (t_at s t) /\ (t_at s t = Check -> t_buf s t = [] /\ after m k = after m n) /\
             exists b, t_buf s t = b ++ tail_of (t_at s t) /\ waits m k n b;
  ti_fine : forall t, fine m (view s t) (t_at s t) }.
Lemma view_empty s t : t_buf s t = [] -> view s t = (t_state s, t_log s).
Proof. intros E. unfold view. rewrite E. reflexivity. Qed.
Lemma ti_kn m s k n : TI m s k n -> k <= n.
Proof.
  intros [A B C D E F G]. destruct (t_lock s) as [t|] eqn:K; [|apply (E eq_refl)]. destruct (F t eq_refl) as (_ & _ & b & _ & W). exact (waits_le _ _ _ _ W).
Qed.
Lemma fold_tail b p x : fold_left apply (b ++ tail_of p) x = fold_left apply b x.
Proof. rewrite fold_left_app. destruct p; reflexivity. Qed.
Lemma view_owner m s k n t : TI m s k n -> t_lock s = Some t -> after m n = Ok (view s t).
Proof.
  intros I K. destruct (ti_own _ _ _ _ I t K) as (_ & _ & b & E & W). unfold view. rewrite E, fold_tail. apply (waits_view m k); [exact W|]. exact (ti_mem _ _ _ _ I).
Qed.
Lemma view_other m s k n t : TI m s k n -> t_lock s <> Some t -> after m k = Ok (view s t).
Proof. intros I K. rewrite (view_empty s t (ti_others _ _ _ _ I t K)). exact (ti_mem _ _ _ _ I). Qed.
Lemma lock_dec s t : {t_lock s = Some t} + {t_lock s <> Some t}.
Proof. destruct (t_lock s) as [u|]; [|right; discriminate]. destruct (Nat.eq_dec u t) as [->|N]; [left; reflexivity|right; congruence]. Qed.
Lemma view_some m s k n t : TI m s k n -> exists j, k <= j <= n /\ after m j = Ok (view s t).
Proof.
  intros I. pose proof (ti_kn _ _ _ _ I). destruct (lock_dec s t) as [K|K]; [exists n; split; [lia|exact (view_owner _ _ _ _ _ I K)]|exists k; split; [lia|exact (view_other _ _ _ _ _ I K)]].
Qed.
Lemma tmove_same s t p : t_at (t_move s t p) t = p.
Proof. cbn [t_move t_at]. rewrite Nat.eqb_refl. reflexivity. Qed.
Lemma tmove_other s t p u : u <> t -> t_at (t_move s t p) u = t_at s u.
Proof. intros H. cbn [t_move t_at]. apply Nat.eqb_neq in H. rewrite H. reflexivity. Qed.
Lemma ti_out m s k n t p : TI m s k n -> ~ inside_init (t_at s t) -> ~ inside_init p -> fine m (view s t) p -> TI m (t_move s t p) k n.
Proof.
  intros [A B C D E F G] N1 N2 FP. constructor; try assumption.
  - intros u. destruct (Nat.eq_dec u t) as [->|N]; [rewrite tmove_same; contradiction|rewrite tmove_other by exact N; apply C].
  - intros u K. cbn [t_move t_lock t_buf] in K |- *. destruct (Nat.eq_dec u t) as [->|N]; [|rewrite tmove_other by exact N; exact (F u K)].
    rewrite tmove_same. destruct (F t K) as (S & _ & b & E1 & W).
    assert (T1 : tail_of (t_at s t) = [WFree]) by (destruct (t_at s t); try reflexivity; exfalso; exact (N1 Logic.I)).
    assert (T2 : tail_of p = [WFree]) by (destruct p; try reflexivity; exfalso; exact (N2 Logic.I)).
    assert (S1 : n = length (section m)) by (destruct (t_at s t); try exact S; exfalso; exact (N1 Logic.I)).
    split; [destruct p; try exact S1; exfalso; exact (N2 Logic.I)|]. split; [intros ->; exfalso; exact (N2 Logic.I)|].
    exists b. split; [rewrite E1, T1, T2; reflexivity|exact W].
  - intros u. change (view (t_move s t p) u) with (view s u). destruct (Nat.eq_dec u t) as [->|N]; [rewrite tmove_same; exact FP|rewrite tmove_other by exact N; apply G].
Qed.
Lemma fine_plain m x p : ~ started p -> fine m x p.
Proof.
  intros N. constructor.
  - intros H. contradiction.
  - intros q ->. exfalso. exact (N Logic.I).
  - intros f [->| ->]; exfalso; exact (N Logic.I).
  - intros id ->. exfalso. exact (N Logic.I).
Qed.
(** The thread that has the lock moves and may issue stores. *)
Lemma ti_inside m s s' k n n' t b' : TI m s k n -> t_lock s = Some t -> n' <= length (section m) ->
  t_state s' = t_state s -> t_log s' = t_log s -> t_lock s' = t_lock s -> (forall u, u <> t -> t_buf s' u = t_buf s u /\ t_at s' u = t_at s u) ->
  stage m n' (t_at s' t) -> t_at s' t <> Check -> t_buf s' t = b' ++ tail_of (t_at s' t) -> waits m k n' b' -> fine m (view s' t) (t_at s' t) -> TI m s' k n'.
Proof.
  intros [A B C D E F G] K L H1 H2 H3 HO ST NC HB W FP. constructor.
  - rewrite H1, H2. exact A.
  - exact L.
  - intros u I. rewrite H3. destruct (Nat.eq_dec u t) as [->|N]; [exact K|]. apply C. rewrite <- (proj2 (HO u N)). exact I.
  - intros u NK. rewrite H3 in NK. assert (N : u <> t) by (intros ->; contradiction). rewrite (proj1 (HO u N)). exact (D u NK).
  - rewrite H3, K. discriminate.
  - intros u KU. rewrite H3, K in KU. injection KU as <-. split; [exact ST|]. split; [intros Z; contradiction|]. exists b'. split; assumption.
  - intros u. destruct (Nat.eq_dec u t) as [->|N]; [exact FP|]. unfold view. rewrite H1, H2, (proj1 (HO u N)), (proj2 (HO u N)). exact (G u).
Qed.
Lemma move_others s t p u : u <> t -> t_buf (t_move s t p) u = t_buf s u /\ t_at (t_move s t p) u = t_at s u.
Proof. intros N. split; [reflexivity|apply tmove_other; exact N]. Qed.
Lemma push_others s t l p u : u <> t -> t_buf (t_move (t_push s t l) t p) u = t_buf s u /\ t_at (t_move (t_push s t l) t p) u = t_at s u.
Proof. intros N. cbn [t_move t_push t_buf t_at]. apply Nat.eqb_neq in N. rewrite N. split; reflexivity. Qed.
Lemma push_same s t l p : t_buf (t_move (t_push s t l) t p) t = t_buf s t ++ l.
Proof. cbn [t_move t_push t_buf]. rewrite Nat.eqb_refl. reflexivity. Qed.
Lemma flush_ok m s k n t i : mach_ok m -> TI m s k n -> exists k', TI m (t_flush true s t i) k' n.
Proof.
  intros OK I. unfold t_flush. destruct (nth_error (t_buf s t) i) as [w|] eqn:EN; [|exists k; exact I]. destruct (Nat.eqb_spec i 0) as [I0|I0]; [|exists k; exact I]. subst i.
  destruct (lock_dec s t) as [K|K]; [|exfalso; rewrite (ti_others _ _ _ _ I t K) in EN; discriminate].
  pose proof (ti_own _ _ _ _ I t K) as (ST & CH & b & EB & W). pose proof (view_owner _ _ _ _ _ I K) as VO.
  destruct b as [|w0 b].
  - cbn [app] in EB. destruct (tail_of (t_at s t)) as [|z [|z2 tl]] eqn:ET; rewrite EB in EN; [discriminate| |destruct (t_at s t); discriminate].
    assert (z = WFree) by (destruct (t_at s t); cbn in ET; congruence). subst z. cbn [nth_error] in EN. injection EN as <-. rewrite EB. cbn [apply fst snd firstn skipn app].
    assert (NI : ~ inside_init (t_at s t)) by (intros Z; destruct (t_at s t); try contradiction; discriminate).
    assert (EN : n = length (section m)) by (destruct (t_at s t); try exact ST; exfalso; exact (NI Logic.I)).
    assert (EQ : after m k = after m n) by (inversion W; assumption). assert (LK : k <= n) by exact (waits_le _ _ _ _ W).
    exists k. destruct I as [A B C D E F G]. constructor; cbn [t_state t_log t_lock t_buf t_at].
    + exact A.
    + exact B.
    + intros u IU. exfalso. pose proof (C u IU) as Q. rewrite K in Q. injection Q as <-. exact (NI IU).
    + intros u _. destruct (Nat.eqb_spec u t) as [Q|N]; [reflexivity|]. apply D. rewrite K. congruence.
    + intros _. split; [exact LK|]. split; [exact EQ|right; exact EN].
    + discriminate.
    + intros u. unfold view. cbn [t_state t_log t_buf]. destruct (Nat.eqb_spec u t) as [Q|N]; [|exact (G u)]. subst u. cbn [fold_left]. specialize (G t). unfold view in G. rewrite EB in G. exact G.
  - inversion W as [|k0 j n0 x w1 b1 LJ HK NW HJ WJ]; subst k0 n0 w1 b1. rewrite EB in EN. cbn [app nth_error] in EN. injection EN as <-.
    pose proof (ti_mem _ _ _ _ I) as MEM. rewrite MEM in HK. injection HK as <-. rewrite EB. cbn [firstn skipn app].
    assert (NC : t_at s t <> Check) by (intros Z; destruct (CH Z) as (Q & _); rewrite Q in EB; discriminate).
    exists j. assert (LKJ : (match w0 with WFree => None | _ => t_lock s end) = t_lock s) by (destruct w0; try reflexivity; contradiction). rewrite LKJ.
    destruct I as [A B C D E F G]. constructor; cbn [t_state t_log t_lock t_buf t_at].
    + rewrite HJ. f_equal. destruct (apply (t_state s, t_log s) w0); reflexivity.
    + exact B.
    + exact C.
    + intros u NK. destruct (Nat.eqb_spec u t) as [Q|N]; [subst u; contradiction|exact (D u NK)].
    + rewrite K. discriminate.
    + intros u KU. rewrite K in KU. injection KU as <-. rewrite Nat.eqb_refl. split; [exact ST|]. split; [intros Z; contradiction|]. exists b. split; [reflexivity|exact WJ].
    + intros u. unfold view. cbn [t_state t_log t_buf]. destruct (Nat.eqb_spec u t) as [Q|N].
      * subst u. specialize (G t). unfold view in G. rewrite EB in G. cbn [app fold_left] in G. rewrite <- surjective_pairing. exact G.
      * assert (NK : t_lock s <> Some u) by (rewrite K; congruence). rewrite (D u NK). cbn [fold_left]. rewrite <- surjective_pairing.
        apply (fine_mono m k j (t_state s, t_log s)); [exact OK|exact LJ|exact A|exact HJ|]. rewrite <- (view_empty s u (D u NK)). exact (G u).
Qed.
(** Every step keeps the invariant, and goes wrong only for the round robin. *)
Lemma TI_step m s k n a : mach_ok m -> tact_ok m a -> TI m s k n ->
  (exists s' k' n', tstep true m a s = Ok s' /\ TI m s' k' n') \/
  (tstep true m a s = UB /\ exists t o r p, a = TGo t o r /\ t_at s t = Pick p /\ ~ robin_fine m (fst (view s t))).
Proof.
  intros OK V I. destruct a as [t|t|t o r|t i]; cbn [tstep].
  - left. destruct (t_at s t) eqn:A; try (exists s, k, n; split; [reflexivity|exact I]). eexists. exists k, n. split; [reflexivity|].
    apply ti_out; [exact I|rewrite A; exact (fun x => x)|exact (fun x => x)|]. apply fine_plain. exact (fun x => x).
  - left. destruct (t_at s t) eqn:A; try (exists s, k, n; split; [reflexivity|exact I]). eexists. exists k, n. split; [reflexivity|].
    pose proof (ti_fine _ _ _ _ I t) as F. rewrite A in F. pose proof (f_start _ _ _ F Logic.I) as ST.
    destruct (hw m) eqn:HW; (apply ti_out; [exact I|rewrite A; exact (fun x => x)|exact (fun x => x)|]); constructor; try discriminate; try (intros _; exact ST).
    + intros f _. exact HW.
    + intros q Q. injection Q as <-. right. left. split; [reflexivity|exact HW].
    + intros f [Q|Q]; discriminate.
  - destruct V as (VO & VR).
    assert (OUT : ~ inside_init (t_at s t) -> t_at s t <> Lock ->
      (exists s' k' n', rbind (local m o r (view s t) (t_at s t)) (fun q => Ok (t_move s t q)) = Ok s' /\ TI m s' k' n') \/
      (rbind (local m o r (view s t) (t_at s t)) (fun q => Ok (t_move s t q)) = UB /\ exists t' o' r' p, TGo t o r = TGo t' o' r' /\ t_at s t' = Pick p /\ ~ robin_fine m (fst (view s t')))).
    { intros N NL. destruct (view_some _ _ _ _ t I) as (j & LJ & HJ). pose proof (ti_len _ _ _ _ I) as LN.
      destruct (local_ok m (view s t) (t_at s t) j o r OK HJ ltac:(lia) N NL (ti_fine _ _ _ _ I t) VO VR) as [(q & E & NQ & FQ)|(E & R)]; rewrite E; cbn [rbind].
      - left. eexists. exists k, n. split; [reflexivity|]. apply ti_out; assumption.
      - right. split; [reflexivity|]. exists t, o, r.
        destruct (t_at s t) as [| | | |z| | |f|f|q|id] eqn:A; try discriminate E; try (exfalso; exact (N Logic.I)).
        + exfalso. cbn [local] in E. assert (ST : 2 <= fst (view s t)) by (apply (f_start m (view s t) Chain); [rewrite <- A; exact (ti_fine _ _ _ _ I t)|exact Logic.I]).
          destruct (view s t) as (v, d). destruct (after_high m j v d OK HJ ST) as (e & ->). unfold seen in E. cbn [snd] in E. rewrite existsb_app in E.
          unfold basics in E. cbn in E. destruct (hw m); discriminate.
        + exists q. split; [reflexivity|]. split; [reflexivity|exact R]. }
    destruct (t_at s t) as [| | | |j| | |f|f|p|id] eqn:A; try (apply OUT; [exact (fun x => x)|discriminate]).
    + left. destruct (t_lock s) as [u|] eqn:K; [exists s, k, n; split; [reflexivity|exact I]|]. destruct (t_buf s t) as [|w b] eqn:EB; [|exists s, k, n; split; [reflexivity|exact I]].
      eexists. exists k, n. split; [reflexivity|]. destruct I as [A0 B C D E F G]. destruct (E K) as (E1 & E2 & E3). constructor; cbn [t_take t_move t_state t_log t_lock t_buf t_at].
      * exact A0.
      * exact B.
      * intros u IU. destruct (Nat.eqb_spec u t) as [Q|N]; [congruence|]. exfalso. pose proof (C u IU) as Q. rewrite K in Q. discriminate.
      * intros u _. apply D. rewrite K. discriminate.
      * discriminate.
      * intros u KU. injection KU as <-. rewrite Nat.eqb_refl. split; [exact E3|]. split; [intros _; split; [exact EB|exact E2]|]. exists []. split; [rewrite EB; reflexivity|]. constructor; assumption.
      * intros u. unfold view. cbn [t_take t_move t_state t_log t_buf]. destruct (Nat.eqb_spec u t) as [Q|N]; [apply fine_plain; exact (fun x => x)|exact (G u)].
    + left. assert (K : t_lock s = Some t) by (apply (ti_in _ _ _ _ I); rewrite A; exact Logic.I). destruct (ti_own _ _ _ _ I t K) as (ST & CH & b & EB & W). rewrite A in ST, EB. destruct (CH A) as (B0 & EQ).
      cbn [tail_of] in EB. rewrite app_nil_r in EB. pose proof (view_owner _ _ _ _ _ I K) as VW. pose proof (ti_len _ _ _ _ I) as LN. cbn [stage] in ST. eexists. exists k, n. split; [reflexivity|].
      destruct (Nat.eqb_spec (fst (view s t)) 0) as [Z|Z].
      * assert (N0 : n = 0) by (destruct ST as [ST|ST]; [exact ST|]; rewrite ST, (after_full m _ OK (le_n _)) in VW; injection VW as VW; rewrite <- VW in Z; discriminate).
        apply (ti_inside m s _ k n n t b I K LN); try reflexivity; try (exact W); try (rewrite tmove_same).
        -- intros u N. apply move_others. exact N.
        -- symmetry. exact N0.
        -- discriminate.
        -- cbn [tail_of]. rewrite app_nil_r. exact EB.
        -- apply fine_plain. exact (fun x => x).
      * assert (N0 : n = length (section m)) by (destruct ST as [ST|ST]; [|exact ST]; rewrite ST in VW; cbn in VW; injection VW as VW; rewrite <- VW in Z; exfalso; apply Z; reflexivity).
        apply (ti_inside m s _ k n n t b I K LN); try reflexivity; try (exact W); try (rewrite tmove_same).
        -- intros u N. apply move_others. exact N.
        -- exact N0.
        -- discriminate.
        -- cbn [tail_of]. rewrite app_nil_r. exact EB.
        -- apply fine_plain. exact (fun x => x).
    + left. assert (K : t_lock s = Some t) by (apply (ti_in _ _ _ _ I); rewrite A; exact Logic.I). destruct (ti_own _ _ _ _ I t K) as (ST & _ & b & EB & W). rewrite A in ST, EB. cbn [stage] in ST. subst j.
      cbn [tail_of] in EB. rewrite app_nil_r in EB. pose proof (view_owner _ _ _ _ _ I K) as VW. pose proof (ti_len _ _ _ _ I) as LN.
      destruct (nth_error (section m) n) as [i|] eqn:EN.
      * assert (LN' : S n <= length (section m)) by (apply nth_error_Some; congruence). destruct (issue_ok m n i (view s t) OK VW EN) as (l & EI & CASE). rewrite EI. cbn [rbind].
        eexists. exists k, (S n). split; [reflexivity|]. apply (ti_inside m s _ k n (S n) t (b ++ l) I K LN'); try reflexivity; try (rewrite tmove_same).
        -- intros u N. apply push_others. exact N.
        -- reflexivity.
        -- discriminate.
        -- rewrite push_same, EB. cbn [tail_of]. rewrite app_nil_r. reflexivity.
        -- destruct CASE as [(-> & AS)|(w & -> & NW & AS)].
           ++ rewrite app_nil_r. apply (waits_stay m k n); [exact W|lia|congruence].
           ++ apply (waits_push m k n (S n) b (view s t) w); [exact W|lia|exact NW|exact VW|exact AS].
        -- apply fine_plain. exact (fun x => x).
      * apply nth_error_None in EN. eexists. exists k, n. split; [reflexivity|]. apply (ti_inside m s _ k n n t b I K LN); try reflexivity; try (exact W); try (rewrite tmove_same).
        -- intros u N. apply move_others. exact N.
        -- cbn [stage]. lia.
        -- discriminate.
        -- cbn [tail_of]. rewrite app_nil_r. exact EB.
        -- apply fine_plain. exact (fun x => x).
    + left. assert (K : t_lock s = Some t) by (apply (ti_in _ _ _ _ I); rewrite A; exact Logic.I). destruct (ti_own _ _ _ _ I t K) as (ST & _ & b & EB & W). rewrite A in ST, EB. cbn [stage] in ST.
      cbn [tail_of] in EB. rewrite app_nil_r in EB. pose proof (view_owner _ _ _ _ _ I K) as VW. pose proof (ti_len _ _ _ _ I) as LN. rewrite ST, (after_full m _ OK (le_n _)) in VW. injection VW as VW.
      eexists. exists k, n. split; [reflexivity|]. apply (ti_inside m s _ k n n t b I K LN); try reflexivity; try (exact W); try (rewrite tmove_same).
      * intros u N. apply push_others. exact N.
      * exact ST.
      * discriminate.
      * rewrite push_same, EB. reflexivity.
      * assert (VV : view (t_move (t_push s t [WFree]) t Chain) t = view s t).
        { unfold view. rewrite push_same. cbn [t_move t_push t_state t_log]. rewrite fold_left_app. reflexivity. }
        rewrite VV, <- VW. constructor; try discriminate; [intros _; cbn; lia|intros f [Q|Q]; discriminate].
  - left. destruct (flush_ok m s k n t i OK I) as (k' & I'). eexists. exists k', n. split; [reflexivity|exact I'].
Qed.
Lemma TI_0 m : TI m t0 0 0.
Proof.
  constructor.
  - reflexivity.
  - lia.
  - intros t H. destruct H.
  - reflexivity.
  - intros _. split; [lia|]. split; [reflexivity|left; reflexivity].
  - discriminate.
  - intros t. apply fine_plain. exact (fun x => x).
Qed.
Lemma TI_reach m s : mach_ok m -> treach true m s -> exists k n, TI m s k n.
Proof.
  intros OK R. induction R as [|s a s' R IH V E]; [exists 0, 0; apply TI_0|]. destruct IH as (k & n & I). destruct (TI_step m s k n a OK V I) as [(s1 & k' & n' & E1 & I')|(E1 & _)].
  - rewrite E in E1. injection E1 as <-. exists k', n'. exact I'.
  - rewrite E in E1. discriminate.
Qed.

(** ** The statements *)
Lemma view_sees s t d : In d (snd (view s t)) -> sees s t d.
Proof.
  unfold view, sees. generalize (t_buf s t). intros b. change (t_log s) with (snd (t_state s, t_log s)) at 2. generalize (t_state s, t_log s). intros x. revert x.
  induction b as [|w b IH]; intros x H; [left; exact H|]. cbn [fold_left] in H. destruct (IH _ H) as [Q|Q]; [|right; right; exact Q].
  destruct w as [v|e|]; cbn [apply snd] in Q; [left; exact Q| |left; exact Q]. apply in_app_iff in Q as [Q|[Q|[]]]; [left; exact Q|right; left; f_equal; exact Q].
Qed.
Lemma tso_prefix m s : mach_ok m -> treach true m s -> NoDup (all_done m) /\ exists e, all_done m = t_log s ++ e.
Proof.
  intros OK R. split; [exact (proj1 (done_prefix m ist0 OK (ireach_0 m)))|]. destruct (TI_reach m s OK R) as (k & n & I). destruct (after_ok m k OK) as (v & d & E & e & Q).
  rewrite (ti_mem _ _ _ _ I) in E. injection E as _ <-. exists e. exact Q.
Qed.
Lemma tso_ready m s t : mach_ok m -> treach true m s -> started (t_at s t) -> 2 <= fst (view s t) /\ forall d, In d (basics m) -> sees s t d.
Proof.
  intros OK R H. destruct (TI_reach m s OK R) as (k & n & I). pose proof (f_start _ _ _ (ti_fine _ _ _ _ I t) H) as V. split; [exact V|]. intros d Hd. apply view_sees.
  destruct (view_some _ _ _ _ t I) as (j & _ & E). destruct (view s t) as (v, l). destruct (after_high m j v l OK E V) as (e & ->). apply in_or_app. left. exact Hd.
Qed.
Lemma tso_source m s t id : mach_ok m -> treach true m s -> t_at s t = Got id -> sees s t (Source id).
Proof. intros OK R H. destruct (TI_reach m s OK R) as (k & n & I). apply view_sees. exact (f_got _ _ _ (ti_fine _ _ _ _ I t) id H). Qed.
Lemma tso_one m s t u : mach_ok m -> treach true m s -> inside_init (t_at s t) -> inside_init (t_at s u) -> t = u.
Proof. intros OK R A B. destruct (TI_reach m s OK R) as (k & n & I). apply (ti_in _ _ _ _ I) in A. apply (ti_in _ _ _ _ I) in B. congruence. Qed.
Lemma tso_alone m s t : mach_ok m -> treach true m s -> inside_init (t_at s t) -> forall u, u <> t -> t_buf s u = [].
Proof. intros OK R A u N. destruct (TI_reach m s OK R) as (k & n & I). apply (ti_in _ _ _ _ I) in A. apply (ti_others _ _ _ _ I). congruence. Qed.
Lemma tso_no_abort m s a : mach_ok m -> treach true m s -> tact_ok m a -> tstep true m a s <> Abort /\ tstep true m a s <> OutOfFuel.
Proof. intros OK R V. destruct (TI_reach m s OK R) as (k & n & I). destruct (TI_step m s k n a OK V I) as [(s' & k' & n' & E & _)|(E & _)]; rewrite E; split; discriminate. Qed.
Lemma tso_no_fault m s a : mach_ok m -> treach true m s -> tact_ok m a ->
  hw m = false \/ robin m = false \/ (t_state s = 3 /\ nodes m <> 0) -> exists s', tstep true m a s = Ok s'.
Proof.
  intros OK R V H. destruct (TI_reach m s OK R) as (k & n & I). destruct (TI_step m s k n a OK V I) as [(s' & k' & n' & E & _)|(E & t & o & r & p & -> & P & NR)]; [exists s'; exact E|].
  exfalso. apply NR. destruct H as [H|[H|(H & H2)]]; [left; exact H|right; left; exact H|]. right. right. split; [|exact H2].
  destruct (view_some _ _ _ _ t I) as (j & L & E2). destruct (view s t) as (v, d). destruct (after_mono m k OK j _ _ (proj1 L) (ti_mem _ _ _ _ I) E2) as (M & _). pose proof (after_le3 _ _ _ _ E2). cbn [fst] in *. lia.
Qed.
Lemma tso_done m s : mach_ok m -> treach true m s -> t_state s = 3 -> t_log s = all_done m.
Proof. intros OK R H. destruct (TI_reach m s OK R) as (k & n & I). pose proof (ti_mem _ _ _ _ I) as E. rewrite H in E. exact (proj1 (after_3 _ _ _ OK E)). Qed.

(** ** No dead end *)
Lemma truns_app f m s l1 s1 l2 s2 : truns f m s l1 s1 -> truns f m s1 l2 s2 -> truns f m s (l1 ++ l2) s2.
Proof. induction 1 as [s|s a s0 l s1 V E R IH]; intros H; [exact H|]. cbn [app]. apply (truns_s f m s a s0); [exact V|exact E|exact (IH H)]. Qed.
Lemma truns_reach f m s l s' : treach f m s -> truns f m s l s' -> treach f m s'.
Proof. intros R T. revert R. induction T as [s|s a s1 l s2 V E T IH]; intros R; [exact R|]. apply IH. exact (treach_s f m s a s1 R V E). Qed.
Lemma go_fine m t : tact_ok m (TGo t None 0).
Proof. split; [discriminate|]. lia. Qed.
Definition plain_ok (m : machine) : Prop := hw m = false \/ robin m = false.
Lemma step_fine m s k n a : mach_ok m -> plain_ok m -> tact_ok m a -> TI m s k n -> exists s' k' n', tstep true m a s = Ok s' /\ TI m s' k' n'.
Proof.
  intros OK P V I. destruct (TI_step m s k n a OK V I) as [H|(_ & t & o & r & p & _ & _ & R)]; [exact H|]. exfalso. apply R. destruct P as [P|P]; [left; exact P|right; left; exact P].
Qed.
(** The waiting stores of a thread that has left the section reach the memory. *)
Lemma drain m u b : mach_ok m -> plain_ok m -> forall s k n, length b <= u -> TI m s k n -> forall t, t_lock s = Some t -> ~ inside_init (t_at s t) -> t_buf s t = b ++ [WFree] ->
  exists l s' k' n', truns true m s l s' /\ TI m s' k' n' /\ t_lock s' = None /\ t_at s' = t_at s.
Proof.
  intros OK P. revert b. induction u as [|u IH]; intros b s k n L I t K NI EB; (destruct b as [|w b]; [|cbn [length] in L; try lia]).
  1,2: cbn [app] in EB; destruct (step_fine m s k n (TFlush t 0) OK P Logic.I I) as (s' & k' & n' & E & I'); exists [TFlush t 0], s', k', n';
    (split; [apply (truns_s _ _ _ _ s'); [exact Logic.I|exact E|constructor]|]); (split; [exact I'|]); cbn [tstep] in E; unfold t_flush in E; rewrite EB in E; cbn [nth_error Nat.eqb] in E; injection E as <-; split; reflexivity.
  destruct (step_fine m s k n (TFlush t 0) OK P Logic.I I) as (s1 & k1 & n1 & E & I1). pose proof E as E0. cbn [tstep] in E. unfold t_flush in E. rewrite EB in E. cbn [app nth_error Nat.eqb firstn skipn] in E.
  assert (NW : w <> WFree).
  { destruct (ti_own _ _ _ _ I t K) as (_ & _ & b0 & EB0 & W). intros ->. assert (T1 : tail_of (t_at s t) = [WFree]) by (destruct (t_at s t); try reflexivity; exfalso; exact (NI Logic.I)).
    rewrite EB, T1 in EB0. apply app_inj_tail in EB0 as (EB0 & _). apply (waits_free _ _ _ _ W). rewrite <- EB0. left. reflexivity. }
  injection E as E. assert (K1 : t_lock s1 = Some t) by (rewrite <- E; cbn [t_lock]; destruct w; try exact K; contradiction).
  assert (A1 : t_at s1 = t_at s) by (rewrite <- E; reflexivity). assert (B1 : t_buf s1 t = b ++ [WFree]) by (rewrite <- E; cbn [t_buf]; rewrite Nat.eqb_refl; reflexivity).
  destruct (IH b s1 k1 n1 ltac:(lia) I1 t K1 ltac:(rewrite A1; exact NI) B1) as (l & s' & k' & n' & T & I' & N' & A').
  exists (TFlush t 0 :: l), s', k', n'. split; [apply (truns_s _ _ _ _ s1); [exact Logic.I|exact E0|exact T]|]. split; [exact I'|]. split; [exact N'|]. rewrite A', A1. reflexivity.
Qed.
(** The thread in the section comes out of it. *)
Definition left_in (m : machine) (p : place) : nat :=
  match p with Check => length (section m) + 3 | In_ j => length (section m) - j + 2 | Unlock => 1 | _ => 0 end.
Lemma come_out m c : mach_ok m -> plain_ok m -> forall s k n t, left_in m (t_at s t) <= c -> TI m s k n -> inside_init (t_at s t) ->
  exists l s' k' n', truns true m s l s' /\ TI m s' k' n' /\ t_lock s' = Some t /\ t_at s' t = Chain /\ forall x, x <> t -> t_at s' x = t_at s x.
Proof.
  intros OK P. induction c as [|c IH]; intros s k n t L I IN.
  - exfalso. destruct (t_at s t); cbn [left_in inside_init] in *; try contradiction; lia.
  - assert (K : t_lock s = Some t) by exact (ti_in _ _ _ _ I t IN). destruct (step_fine m s k n (TGo t None 0) OK P (go_fine m t) I) as (s1 & k1 & n1 & E & I1).
    assert (X : t_lock s1 = Some t /\ (forall x, x <> t -> t_at s1 x = t_at s x) /\ (t_at s1 t = Chain \/ inside_init (t_at s1 t) /\ left_in m (t_at s1 t) <= c)).
    { cbn [tstep] in E. destruct (t_at s t) as [| | | |j| | |f|f|p|id] eqn:A; try contradiction.
      - injection E as <-. split; [exact K|]. split; [intros x N; apply tmove_other; exact N|]. right. rewrite tmove_same. cbn [left_in] in L. destruct (Nat.eqb _ 0); (split; [exact Logic.I|cbn [left_in]; lia]).
      - destruct (nth_error (section m) j) as [i|] eqn:EN.
        + assert (J1 : j < length (section m)) by (apply nth_error_Some; congruence). destruct (issue m i (view s t)) as [l| | |]; cbn [rbind] in E; try discriminate. injection E as <-.
          split; [exact K|]. split; [intros x N; exact (proj2 (push_others s t l _ x N))|]. right. rewrite tmove_same. split; [exact Logic.I|]. cbn [left_in] in L |- *. lia.
        + injection E as <-. split; [exact K|]. split; [intros x N; apply tmove_other; exact N|]. right. rewrite tmove_same. cbn [left_in] in L |- *. split; [exact Logic.I|lia].
      - injection E as <-. split; [exact K|]. split; [intros x N; exact (proj2 (push_others s t [WFree] _ x N))|]. left. apply tmove_same. }
    destruct X as (K1 & O1 & [D|(IN1 & L1)]).
    + exists [TGo t None 0], s1, k1, n1. split; [apply (truns_s _ _ _ _ s1); [apply go_fine|exact E|constructor]|]. split; [exact I1|]. split; [exact K1|]. split; [exact D|exact O1].
    + destruct (IH s1 k1 n1 t L1 I1 IN1) as (l & s' & k' & n' & T & I' & K' & D' & O'). exists (TGo t None 0 :: l), s', k', n'.
      split; [apply (truns_s _ _ _ _ s1); [apply go_fine|exact E|exact T]|]. split; [exact I'|]. split; [exact K'|]. split; [exact D'|]. intros x N. rewrite (O' x N). exact (O1 x N).
Qed.
Lemma inside_dec p : {inside_init p} + {~ inside_init p}.
Proof. destruct p; cbn; auto. Qed.
(** From any state the lock becomes free, and the other threads have not moved. *)
Lemma release m s k n : mach_ok m -> plain_ok m -> TI m s k n ->
  exists l s' k' n', truns true m s l s' /\ TI m s' k' n' /\ t_lock s' = None /\ forall x, ~ inside_init (t_at s x) -> t_at s' x = t_at s x.
Proof.
  intros OK P I. destruct (t_lock s) as [t|] eqn:K; [|exists [], s, k, n; split; [constructor|]; split; [exact I|]; split; [exact K|reflexivity]].
  assert (X : exists l s1 k1 n1, truns true m s l s1 /\ TI m s1 k1 n1 /\ t_lock s1 = Some t /\ ~ inside_init (t_at s1 t) /\ forall x, ~ inside_init (t_at s x) -> t_at s1 x = t_at s x).
  { destruct (inside_dec (t_at s t)) as [IN|NI].
    - destruct (come_out m _ OK P s k n t (le_n _) I IN) as (l & s1 & k1 & n1 & T & I1 & K1 & D1 & O1). exists l, s1, k1, n1. split; [exact T|]. split; [exact I1|]. split; [exact K1|]. split; [rewrite D1; exact (fun x => x)|].
      intros x N. apply O1. intros ->. contradiction.
    - exists [], s, k, n. split; [constructor|]. split; [exact I|]. split; [exact K|]. split; [exact NI|reflexivity]. }
  destruct X as (l1 & s1 & k1 & n1 & T1 & I1 & K1 & NI1 & O1). destruct (ti_own _ _ _ _ I1 t K1) as (_ & _ & b & EB & _).
  assert (TL : tail_of (t_at s1 t) = [WFree]) by (destruct (t_at s1 t); try reflexivity; exfalso; exact (NI1 Logic.I)). rewrite TL in EB.
  destruct (drain m (length b) b OK P s1 k1 n1 (le_n _) I1 t K1 NI1 EB) as (l2 & s2 & k2 & n2 & T2 & I2 & N2 & A2).
  exists (l1 ++ l2), s2, k2, n2. split; [exact (truns_app _ _ _ _ _ _ _ T1 T2)|]. split; [exact I2|]. split; [exact N2|]. intros x N. rewrite A2. exact (O1 x N).
Qed.
Definition to_go (p : place) : nat := match p with Chain => 4 | St1 _ => 3 | St2 _ => 2 | Pick _ => 1 | _ => 0 end.
Lemma to_got m c : mach_ok m -> plain_ok m -> forall s k n t, to_go (t_at s t) <= c -> TI m s k n -> started (t_at s t) ->
  exists l s' id, truns true m s l s' /\ t_at s' t = Got id.
Proof.
  intros OK P. induction c as [|c IH]; intros s k n t L I ST.
  - destruct (t_at s t) as [| | | |j| | |f|f|p|id] eqn:A; cbn [to_go started] in *; try contradiction; try lia. exists [], s, id. split; [constructor|exact A].
  - destruct (step_fine m s k n (TGo t None 0) OK P (go_fine m t) I) as (s1 & k1 & n1 & E & I1).
    assert (X : (exists id, t_at s t = Got id) \/ (started (t_at s1 t) /\ to_go (t_at s1 t) <= c)).
    { cbn [tstep] in E. destruct (t_at s t) as [| | | |j| | |f|f|p|id] eqn:A; try contradiction; cbn [to_go] in L; cbn [local] in E.
      - right. destruct (seen (view s t) EggChain); cbn [rbind] in E; [|discriminate]. injection E as <-. rewrite tmove_same. destruct (hw m); (split; [exact Logic.I|cbn [to_go]; lia]).
      - right. cbn [rbind] in E. injection E as <-. rewrite tmove_same. destruct (Nat.eqb _ 1); (split; [exact Logic.I|cbn [to_go]; lia]).
      - right. cbn [rbind] in E. injection E as <-. rewrite tmove_same. destruct (Nat.eqb _ 2); [|destruct (_ && negb f)]; (split; [exact Logic.I|cbn [to_go]; lia]).
      - right. destruct (hw m && robin m && Nat.eqb (nodes m) 0); [discriminate|]. cbv zeta in E. destruct (_ <=? max_node m); [|discriminate]. destruct (seen (view s t) _); cbn [rbind] in E; [|discriminate].
        injection E as <-. rewrite tmove_same. split; [exact Logic.I|cbn [to_go]; lia].
      - left. exists id. reflexivity. }
    destruct X as [(id & A)|(ST1 & L1)]; [exists [], s, id; split; [constructor|exact A]|].
    destruct (IH s1 k1 n1 t L1 I1 ST1) as (l & s' & id & T & A). exists (TGo t None 0 :: l), s', id. split; [apply (truns_s _ _ _ _ s1); [apply go_fine|exact E|exact T]|exact A].
Qed.
Lemma from_inside m s k n t : mach_ok m -> plain_ok m -> TI m s k n -> inside_init (t_at s t) -> exists l s' id, truns true m s l s' /\ t_at s' t = Got id.
Proof.
  intros OK P I IN. destruct (come_out m _ OK P s k n t (le_n _) I IN) as (l & s1 & k1 & n1 & T & I1 & _ & D1 & _).
  destruct (to_got m 4 OK P s1 k1 n1 t ltac:(rewrite D1; cbn; lia) I1 ltac:(rewrite D1; exact Logic.I)) as (l2 & s2 & id & T2 & A). exists (l ++ l2), s2, id. split; [exact (truns_app _ _ _ _ _ _ _ T T2)|exact A].
Qed.
Lemma from_lock m s k n t : mach_ok m -> plain_ok m -> TI m s k n -> t_at s t = Lock -> exists l s' id, truns true m s l s' /\ t_at s' t = Got id.
Proof.
  intros OK P I A. destruct (release m s k n OK P I) as (l & s1 & k1 & n1 & T & I1 & N1 & O1). assert (A1 : t_at s1 t = Lock) by (rewrite O1; rewrite A; [reflexivity|exact (fun x => x)]).
  destruct (step_fine m s1 k1 n1 (TGo t None 0) OK P (go_fine m t) I1) as (s2 & k2 & n2 & E & I2). pose proof E as E0. cbn [tstep] in E. rewrite A1, N1 in E.
  rewrite (ti_others _ _ _ _ I1 t) in E by (rewrite N1; discriminate). injection E as E.
  assert (A2 : t_at s2 t = Check) by (rewrite <- E; cbn [t_take t_at]; apply tmove_same).
  destruct (from_inside m s2 k2 n2 t OK P I2 ltac:(rewrite A2; exact Logic.I)) as (l2 & s3 & id & T2 & A3). exists (l ++ TGo t None 0 :: l2), s3, id. split; [|exact A3].
  apply (truns_app _ _ _ _ _ _ _ T). apply (truns_s _ _ _ _ s2); [apply go_fine|exact E0|exact T2].
Qed.
Lemma tso_progress m s t : mach_ok m -> plain_ok m -> treach true m s -> t_at s t <> Out -> exists l s' id, truns true m s l s' /\ t_at s' t = Got id.
Proof.
  intros OK P R NO. destruct (TI_reach m s OK R) as (k & n & I). destruct (started_dec (t_at s t)) as [ST|NS]; [exact (to_got m _ OK P s k n t (le_n _) I ST)|].
  destruct (inside_dec (t_at s t)) as [IN|NI]; [exact (from_inside m s k n t OK P I IN)|].
  destruct (t_at s t) as [| | | |j| | |f|f|p|id] eqn:A; try contradiction; try (exfalso; exact (NS Logic.I)); try (exfalso; exact (NI Logic.I)); [|exact (from_lock m s k n t OK P I A)].
  destruct (step_fine m s k n (TGo t None 0) OK P (go_fine m t) I) as (s1 & k1 & n1 & E & I1). pose proof E as E0. cbn [tstep] in E. rewrite A in E. cbn [local rbind] in E. injection E as E.
  assert (X : exists l s' id, truns true m s1 l s' /\ t_at s' t = Got id).
  { assert (A1 : t_at s1 t = if 2 <=? fst (view s t) then Chain else Lock) by (rewrite <- E; apply tmove_same). destruct (2 <=? fst (view s t)).
    - apply (to_got m 4 OK P s1 k1 n1 t); [rewrite A1; cbn; lia|exact I1|rewrite A1; exact Logic.I].
    - exact (from_lock m s1 k1 n1 t OK P I1 A1). }
  destruct X as (l & s' & id & T & D). exists (TGo t None 0 :: l), s', id. split; [apply (truns_s _ _ _ _ s1); [apply go_fine|exact E0|exact T]|exact D].
Qed.

(** ** Stores that overtake each other *)
(** Thread 0 fills its buffer, the state overtakes what it announces, and thread 1 goes on without the egg allocator. *)
Definition tgo (t : nat) : tact := TGo t None 0.
Definition overtake (h : bool) : list tact := [TBegin 0; TBegin 1] ++ repeat (tgo 0) (if h then 12 else 11) ++ [TFlush 0 2; TFlush 0 (if h then 6 else 5); tgo 1].
Fixpoint tplay (f : bool) (m : machine) (l : list tact) (s : tst) : res tst :=
  match l with [] => Ok s | a :: l => rbind (tstep f m a s) (tplay f m l) end.
Lemma tplay_runs f m l : forall s s', (forall a, In a l -> tact_ok m a) -> tplay f m l s = Ok s' -> truns f m s l s'.
Proof.
  induction l as [|a l IH]; intros s s' V E; cbn [tplay] in E; [injection E as <-; constructor|]. destruct (tstep f m a s) as [s1| | |] eqn:E1; cbn [rbind] in E; try discriminate.
  apply (truns_s _ _ _ _ s1); [apply V; left; reflexivity|exact E1|]. apply IH; [intros x H; apply V; right; exact H|exact E].
Qed.
Lemma overtake_ok m h a : In a (overtake h) -> tact_ok m a.
Proof.
  unfold overtake. intros H. apply in_app_iff in H as [H|H]; [|apply in_app_iff in H as [H|H]].
  - cbn [In] in H. repeat (destruct H as [<-|H]; [exact Logic.I|]). contradiction.
  - apply repeat_spec in H. subst a. apply go_fine.
  - cbn [In] in H. destruct H as [<-|[<-|[<-|[]]]]; [exact Logic.I|exact Logic.I|apply go_fine].
Qed.
Lemma overtaken m : exists s, treach false m s /\ t_at s 1 = Chain /\ t_state s = 2 /\ ~ sees s 1 EggChain /\ tstep false m (tgo 1) s = UB.
Proof.
  assert (E : exists s, tplay false m (overtake (hw m)) t0 = Ok s /\ t_at s 1 = Chain /\ t_state s = 2 /\ t_log s = [] /\ t_buf s 1 = []).
  { destruct m as [[|] n b r]; eexists; (split; [vm_compute; reflexivity|]); (split; [reflexivity|]); (split; [reflexivity|]); split; reflexivity. }
  destruct E as (s & E & A & B & C & D). exists s. split; [apply (truns_reach _ _ t0 (overtake (hw m))); [constructor|]; apply tplay_runs; [apply overtake_ok|exact E]|].
  split; [exact A|]. split; [exact B|]. split; [unfold sees; rewrite C, D; cbn; tauto|]. cbn [tgo tstep]. rewrite A. cbn [local]. unfold seen, view. rewrite C, D. reflexivity.
Qed.
