(** Start-up: the invariant and the lemmas behind C55. *)
From Verif Require Import Res InitModel InitSpec.
From Coq Require Import List Bool Arith Lia.
Import ListNotations.

(** The section seen alone: the state and what was done. *)
Definition pstep (m : machine) (i : instr) (x : nat * list doing) : res (nat * list doing) :=
  match i with
  | Do (Source id) => if existsb (doing_eqb EggChain) (snd x) then Ok (fst x, snd x ++ [Source id]) else UB
  | Do d => Ok (fst x, snd x ++ [d])
  | State v => Ok (v, snd x)
  | Need v => if Nat.eqb (fst x) v then Ok x else Abort
  | NeedNodes => if nodes m <=? max_node m then Ok x else Abort
  end.
Fixpoint prun (m : machine) (l : list instr) (x : nat * list doing) : res (nat * list doing) :=
  match l with [] => Ok x | i :: l => rbind (pstep m i x) (prun m l) end.
Lemma prun_app m l1 l2 : forall x, prun m (l1 ++ l2) x = rbind (prun m l1 x) (prun m l2).
Proof. induction l1 as [|i l1 IH]; intros x; cbn [app prun rbind]; [reflexivity|]. destruct (pstep m i x); cbn [rbind]; auto. Qed.
Lemma one_instr_p m i s : one_instr m i s = rbind (pstep m i (gstate s, glog s)) (fun x => Ok (mkIst (fst x) (glock s) (snd x) (at_ s))).
Proof.
  destruct i as [d|v|v|]; cbn [one_instr pstep fst snd].
  - destruct d; cbn [rbind fst snd]; try reflexivity. unfold was_done. destruct (existsb (doing_eqb EggChain) (glog s)); reflexivity.
  - reflexivity.
  - destruct (Nat.eqb (gstate s) v); [destruct s; reflexivity|reflexivity].
  - destruct (nodes m <=? max_node m); [destruct s; reflexivity|reflexivity].
Qed.
Lemma pstep_grows m i x x' : pstep m i x = Ok x' -> exists e, snd x' = snd x ++ e.
Proof.
  destruct i as [d|v|v|]; cbn [pstep]; intros H.
  - destruct d; try (injection H as <-; eexists; reflexivity). destruct (existsb _ _); [injection H as <-; eexists; reflexivity|discriminate].
  - injection H as <-. exists []. cbn [snd]. symmetry. apply app_nil_r.
  - destruct (Nat.eqb (fst x) v); [injection H as <-; exists []; symmetry; apply app_nil_r|discriminate].
  - destruct (nodes m <=? max_node m); [injection H as <-; exists []; symmetry; apply app_nil_r|discriminate].
Qed.
Lemma prun_grows m l : forall x x', prun m l x = Ok x' -> exists e, snd x' = snd x ++ e.
Proof.
  induction l as [|i l IH]; intros x x' H; cbn [prun] in H; [injection H as <-; exists []; symmetry; apply app_nil_r|].
  destruct (pstep m i x) as [x1| | |] eqn:E; cbn [rbind] in H; try discriminate. destruct (pstep_grows _ _ _ _ E) as (e1 & E1). destruct (IH _ _ H) as (e2 & E2). exists (e1 ++ e2). rewrite E2, E1, app_assoc. reflexivity.
Qed.
Lemma prun_state m l v : forall x x', prun m l x = Ok x' -> fst x <> v -> ~ In (State v) l -> fst x' <> v.
Proof.
  induction l as [|i l IH]; intros x x' H N NI; cbn [prun] in H; [injection H as <-; exact N|]. destruct (pstep m i x) as [x1| | |] eqn:E; cbn [rbind] in H; try discriminate.
  apply (IH _ _ H); [|intros K; apply NI; right; exact K]. destruct i as [d|w|w|]; cbn [pstep] in E.
  - destruct d; try (injection E as <-; exact N). destruct (existsb _ _); [injection E as <-; exact N|discriminate].
  - injection E as <-. cbn [fst]. intros ->. apply NI. left. reflexivity.
  - destruct (Nat.eqb (fst x) w); [injection E as <-; exact N|discriminate].
  - destruct (nodes m <=? max_node m); [injection E as <-; exact N|discriminate].
Qed.
Lemma prun_sources m ids l v d : existsb (doing_eqb EggChain) d = true -> prun m (map (fun i => Do (Source i)) ids ++ l) (v, d) = prun m l (v, d ++ map Source ids).
Proof.
  revert d. induction ids as [|i ids IH]; intros d H; cbn [map app prun]; [rewrite app_nil_r; reflexivity|]. cbn [pstep snd fst]. rewrite H. cbn [rbind]. rewrite IH, <- app_assoc; [reflexivity|]. rewrite existsb_app, H. reflexivity.
Qed.

(** First part (until the state is "default") and the rest. *)
Definition part1 (m : machine) : list instr :=
  [Do ConfigDefaults; Do EggChain; State 1] ++ (if hw m then [Do Topology; Need 1; Do (Source 128)] else [Need 1; Do (Source 0)]) ++ [Do ConfigUser; Do EggSource; State 2].
Lemma section_parts m : section m = part1 m ++ numa_phase m ++ [State 3].
Proof. unfold section, part1. rewrite <- !app_assoc. reflexivity. Qed.
Lemma run_part1 m : prun m (part1 m) (0, []) = Ok (2, basics m).
Proof. unfold part1, basics. destruct (hw m); reflexivity. Qed.
Lemma run_numa m : mach_ok m -> prun m (numa_phase m) (2, basics m) = Ok (2, all_done m).
Proof.
  intros OK. unfold numa_phase, all_done. destruct (hw m) eqn:H; [|rewrite app_nil_r; reflexivity]. cbn [app prun pstep fst Nat.eqb rbind]. unfold max_node. rewrite H. unfold mach_ok in OK. rewrite (proj2 (Nat.leb_le _ _) OK). cbn [rbind].
  assert (B : existsb (doing_eqb EggChain) (basics m) = true) by (unfold basics; rewrite H; reflexivity). destruct (Nat.leb_spec (nodes m) 1) as [L|L].
  - replace (Nat.max 1 (nodes m)) with 1 by lia. change [Do (Source 0)] with (map (fun i => Do (Source i)) [0]). rewrite (prun_sources m [0] [Do OnNode] 2 _ B). cbn [seq map prun pstep rbind fst snd]. rewrite <- app_assoc. reflexivity.
  - replace (Nat.max 1 (nodes m)) with (nodes m) by lia. rewrite (prun_sources m _ [Do OnNode] 2 _ B). cbn [prun pstep rbind fst snd]. rewrite <- app_assoc. reflexivity.
Qed.
Lemma run_all m : mach_ok m -> prun m (section m) (0, []) = Ok (3, all_done m).
Proof. intros OK. rewrite section_parts, prun_app, run_part1. cbn [rbind]. rewrite prun_app, (run_numa _ OK). reflexivity. Qed.

Definition after (m : machine) (n : nat) : res (nat * list doing) := prun m (firstn n (section m)) (0, []).
Lemma after_ok m n : mach_ok m -> exists v d, after m n = Ok (v, d) /\ exists e, all_done m = d ++ e.
Proof.
  intros OK. pose proof (run_all m OK) as H. rewrite <- (firstn_skipn n (section m)), prun_app in H. unfold after. destruct (prun m (firstn n (section m)) (0, [])) as [(v, d)| | |]; cbn [rbind] in H; try discriminate.
  exists v, d. split; [reflexivity|]. exact (prun_grows _ _ _ _ H).
Qed.
Lemma after_S m n i : nth_error (section m) n = Some i -> after m (S n) = rbind (after m n) (pstep m i).
Proof.
  intros H. unfold after. assert (E : firstn (S n) (section m) = firstn n (section m) ++ [i]).
  { apply nth_error_split in H as (l1 & l2 & E1 & E2). rewrite E1, <- E2. replace (S (length l1)) with (length l1 + 1) by lia. rewrite firstn_app_2. replace (length l1) with (length l1 + 0) at 1 by lia. rewrite firstn_app_2. cbn [firstn]. rewrite app_nil_r. reflexivity. }
  rewrite E, prun_app. destruct (prun m (firstn n (section m)) (0, [])) as [x| | |]; cbn [rbind]; try reflexivity. cbn [prun]. destruct (pstep m i x); reflexivity.
Qed.
Lemma after_full m n : mach_ok m -> length (section m) <= n -> after m n = Ok (3, all_done m).
Proof. intros OK L. unfold after. rewrite firstn_all2 by exact L. exact (run_all m OK). Qed.
Lemma low m n : n < length (part1 m) -> exists v d, prun m (firstn n (part1 m)) (0, []) = Ok (v, d) /\ v <= 1.
Proof.
  unfold part1. destruct (hw m); cbn [app length]; intros L.
  - do 9 (destruct n as [|n]; [eexists; eexists; cbn; split; [reflexivity|lia]|]). lia.
  - do 8 (destruct n as [|n]; [eexists; eexists; cbn; split; [reflexivity|lia]|]). lia.
Qed.
Lemma after_high m n v d : mach_ok m -> after m n = Ok (v, d) -> 2 <= v -> exists e, d = basics m ++ e.
Proof.
  intros OK H V. unfold after in H. rewrite section_parts, firstn_app, prun_app in H. destruct (Nat.le_gt_cases (length (part1 m)) n) as [L|L].
  - rewrite firstn_all2 in H by exact L. rewrite run_part1 in H. cbn [rbind] in H. exact (prun_grows _ _ _ _ H).
  - exfalso. replace (n - length (part1 m)) with 0 in H by lia. cbn [firstn] in H. destruct (low m n L) as (v0 & d0 & E & L0). rewrite E in H. cbn [rbind prun] in H. injection H as <- _. lia.
Qed.
Lemma after_3 m n d : mach_ok m -> after m n = Ok (3, d) -> d = all_done m /\ length (section m) <= n.
Proof.
  intros OK H. destruct (Nat.le_gt_cases (length (section m)) n) as [L|L]; [rewrite (after_full _ _ OK L) in H; injection H as <-; auto|]. exfalso. unfold after in H.
  assert (E : firstn n (section m) = firstn n (part1 m ++ numa_phase m)).
  { rewrite section_parts, app_assoc in *. rewrite app_length in L. cbn [length] in L. rewrite firstn_app. replace (n - length (part1 m ++ numa_phase m)) with 0 by lia. rewrite firstn_O, app_nil_r. reflexivity. }
  rewrite E in H. apply (prun_state m _ 3 _ _ H); [cbn; lia| |reflexivity]. intros K. assert (K' : In (State 3) (part1 m ++ numa_phase m)).
  { rewrite <- (firstn_skipn n (part1 m ++ numa_phase m)). apply in_or_app. left. exact K. }
  apply in_app_iff in K' as [K'|K'].
  - unfold part1 in K'. destruct (hw m); cbn in K'; repeat (destruct K' as [K'|K']; [discriminate K'|]); exact K'.
  - unfold numa_phase in K'. destruct (hw m); [|exact K']. cbn [app] in K'. destruct K' as [K'|[K'|K']]; [discriminate|discriminate|]. apply in_app_iff in K' as [K'|[K'|[]]]; [|discriminate].
    destruct (nodes m <=? 1); [destruct K' as [K'|[]]; discriminate|]. apply in_map_iff in K' as (x & K' & _). discriminate.
Qed.
Lemma section_len m : 0 < length (section m).
Proof. unfold section. cbn [app length]. lia. Qed.

(** ** The invariant *)
Definition pick_ok (m : machine) (s : ist) (n : option nat) : Prop :=
  n = Some (max_node m) /\ hw m = true \/ n = Some 0 /\ hw m = false \/ gstate s = 3 /\ hw m = true /\ (forall i, n = Some i -> i < nodes m).
Record J (m : machine) (s : ist) (n : nat) : Prop := {
  j_run : after m n = Ok (gstate s, glog s);
  j_len : n <= length (section m);
  j_free : glock s = None -> n = 0 \/ n = length (section m);
  j_lock : forall t, glock s = Some t <-> inside_init (at_ s t);
  j_in : forall t k, at_ s t = In_ k -> k = n;
  j_check : forall t, at_ s t = Check -> n = 0 \/ n = length (section m);
  j_unlock : forall t, at_ s t = Unlock -> n = length (section m);
  j_start : forall t, started (at_ s t) -> 2 <= gstate s;
  j_pick : forall t p, at_ s t = Pick p -> pick_ok m s p;
  j_st : forall t f, at_ s t = St1 f \/ at_ s t = St2 f -> hw m = true;
  j_got : forall t id, at_ s t = Got id -> In (Source id) (glog s) }.
Lemma move_same s t p : at_ (move s t p) t = p.
Proof. cbn [move at_]. rewrite Nat.eqb_refl. reflexivity. Qed.
Lemma move_other s t p x : x <> t -> at_ (move s t p) x = at_ s x.
Proof. intros H. cbn [move at_]. apply Nat.eqb_neq in H. rewrite H. reflexivity. Qed.

(** A thread outside the section moves to a place outside the section. *)
Lemma J_move m s n t p : J m s n -> ~ inside_init (at_ s t) -> ~ inside_init p -> (started p -> 2 <= gstate s) -> (forall q, p = Pick q -> pick_ok m s q) ->
  (forall f, p = St1 f \/ p = St2 f -> hw m = true) -> (forall id, p = Got id -> In (Source id) (glog s)) -> J m (move s t p) n.
Proof.
  intros [R L F K I C U S P T G] N1 N2 H1 H2 H3 H4. constructor; try exact R; try exact L; try exact F.
  - intros x. destruct (Nat.eq_dec x t) as [->|N]; [rewrite move_same|rewrite move_other by exact N; exact (K x)]. cbn [move glock]. rewrite (K t). tauto.
  - intros x k H. destruct (Nat.eq_dec x t) as [->|N]; [rewrite move_same in H; subst p; exfalso; exact (N2 Logic.I)|rewrite move_other in H by exact N; exact (I x k H)].
  - intros x H. destruct (Nat.eq_dec x t) as [->|N]; [rewrite move_same in H; subst p; exfalso; exact (N2 Logic.I)|rewrite move_other in H by exact N; exact (C x H)].
  - intros x H. destruct (Nat.eq_dec x t) as [->|N]; [rewrite move_same in H; subst p; exfalso; exact (N2 Logic.I)|rewrite move_other in H by exact N; exact (U x H)].
  - intros x H. destruct (Nat.eq_dec x t) as [->|N]; [rewrite move_same in H; exact (H1 H)|rewrite move_other in H by exact N; exact (S x H)].
  - intros x q H. destruct (Nat.eq_dec x t) as [->|N]; [rewrite move_same in H; exact (H2 q H)|rewrite move_other in H by exact N; exact (P x q H)].
  - intros x f H. destruct (Nat.eq_dec x t) as [->|N]; [rewrite move_same in H; exact (H3 f H)|rewrite move_other in H by exact N; exact (T x f H)].
  - intros x id H. destruct (Nat.eq_dec x t) as [->|N]; [rewrite move_same in H; exact (H4 id H)|rewrite move_other in H by exact N; exact (G x id H)].
Qed.
Lemma was_done_in s d : was_done s d = true <-> In d (glog s).
Proof.
  unfold was_done. rewrite existsb_exists. split.
  - intros (x & H1 & H2). assert (x = d) by (destruct d, x; cbn in H2; try discriminate; try reflexivity; apply Nat.eqb_eq in H2; congruence). subst. exact H1.
  - intros H. exists d. split; [exact H|]. destruct d; cbn; try reflexivity. apply Nat.eqb_refl.
Qed.
Lemma basics_in m d s n : mach_ok m -> J m s n -> 2 <= gstate s -> In d (basics m) -> In d (glog s).
Proof. intros OK I V H. destruct (after_high m n _ _ OK (j_run _ _ _ I) V) as (e & ->). apply in_or_app. left. exact H. Qed.
Lemma alone m s n t x : J m s n -> inside_init (at_ s t) -> x <> t -> ~ inside_init (at_ s x).
Proof. intros I H N K. apply (j_lock _ _ _ I) in H. apply (j_lock _ _ _ I) in K. congruence. Qed.
(** A thread inside the section goes on, without changing the state. *)
Lemma J_inside m s n t p : J m s n -> inside_init (at_ s t) -> (p = In_ n \/ (p = Unlock /\ n = length (section m))) -> J m (move s t p) n.
Proof.
  intros I N HP. pose proof (alone m s n t) as AL. destruct I as [R L F K I C U S P T G]. constructor; try exact R; try exact L; try exact F.
  - intros x. destruct (Nat.eq_dec x t) as [->|Nx]; [rewrite move_same|rewrite move_other by exact Nx; exact (K x)]. cbn [move glock]. rewrite (K t). split; [intros _; destruct HP as [-> | (-> & _)]; exact Logic.I|intros _; exact N].
  - intros x k H. destruct (Nat.eq_dec x t) as [->|Nx]; [rewrite move_same in H|rewrite move_other in H by exact Nx; exact (I x k H)]. destruct HP as [-> | (-> & _)]; congruence.
  - intros x H. destruct (Nat.eq_dec x t) as [->|Nx]; [rewrite move_same in H|rewrite move_other in H by exact Nx; exact (C x H)]. destruct HP as [-> | (-> & _)]; discriminate.
  - intros x H. destruct (Nat.eq_dec x t) as [->|Nx]; [rewrite move_same in H|rewrite move_other in H by exact Nx; exact (U x H)]. destruct HP as [-> | (_ & HP)]; [discriminate|exact HP].
  - intros x H. destruct (Nat.eq_dec x t) as [->|Nx]; [rewrite move_same in H|rewrite move_other in H by exact Nx; exact (S x H)]. destruct HP as [-> | (-> & _)]; contradiction.
  - intros x q H. destruct (Nat.eq_dec x t) as [->|Nx]; [rewrite move_same in H|rewrite move_other in H by exact Nx; exact (P x q H)]. destruct HP as [-> | (-> & _)]; discriminate.
  - intros x f H. destruct (Nat.eq_dec x t) as [->|Nx]; [rewrite move_same in H|rewrite move_other in H by exact Nx; exact (T x f H)]. destruct HP as [-> | (-> & _)]; destruct H; discriminate.
  - intros x id H. destruct (Nat.eq_dec x t) as [->|Nx]; [rewrite move_same in H|rewrite move_other in H by exact Nx; exact (G x id H)]. destruct HP as [-> | (-> & _)]; discriminate.
Qed.
Lemma started_dec p : {started p} + {~ started p}.
Proof. destruct p; cbn; auto. Qed.

(** Every step keeps the invariant, and goes wrong only for the round robin. *)
Definition robin_safe (m : machine) (s : ist) : Prop := hw m = false \/ robin m = false \/ (gstate s = 3 /\ nodes m <> 0).
Lemma J_step m s n a : mach_ok m -> iact_ok m a -> J m s n ->
  (exists s' n', istep m a s = Ok s' /\ J m s' n' /\ n <= n') \/ (istep m a s = UB /\ ~ robin_safe m s /\ exists t o r p, a = Go t o r /\ at_ s t = Pick p).
Proof.
  intros OK V I. destruct a as [t|t|t o r]; cbn [istep].
  - left. destruct (at_ s t) eqn:A; try (exists s, n; split; [reflexivity|]; split; [exact I|lia]). eexists. exists n. split; [reflexivity|]. split; [|lia].
    apply (J_move _ _ _ _ _ I); rewrite ?A; cbn; try tauto; try discriminate. intros f [H|H]; discriminate.
  - left. destruct (at_ s t) eqn:A; try (exists s, n; split; [reflexivity|]; split; [exact I|lia]). eexists. exists n. split; [reflexivity|]. split; [|lia].
    assert (ST : 2 <= gstate s) by (apply (j_start _ _ _ I t); rewrite A; exact Logic.I). destruct (hw m) eqn:HW; apply (J_move _ _ _ _ _ I); rewrite ?A; cbn; try tauto; try discriminate.
    + intros q H. injection H as <-. right. left. auto.
    + intros f [H|H]; discriminate.
  - destruct (at_ s t) as [| | | |k| | |f|f|p|id] eqn:A.
    + left. exists s, n. split; [reflexivity|]. split; [exact I|lia].
    + left. eexists. exists n. split; [reflexivity|]. split; [|lia]. destruct (Nat.leb_spec 2 (gstate s)) as [L|L]; apply (J_move _ _ _ _ _ I); rewrite ?A; cbn; try tauto; try discriminate; try (intros f [H|H]; discriminate).
    + left. destruct (glock s) as [h|] eqn:GL; [exists s, n; split; [reflexivity|]; split; [exact I|lia]|]. eexists. exists n. split; [reflexivity|]. split; [|lia].
      pose proof (j_free _ _ _ I GL) as NF. destruct I as [R L F K I C U S P T G]. constructor; try exact R; try exact L; cbn [with_lock glock at_ gstate glog].
      * discriminate.
      * intros x. destruct (Nat.eq_dec x t) as [->|N]; [rewrite move_same; cbn; tauto|rewrite move_other by exact N]. rewrite <- (K x), GL. split; congruence.
      * intros x k H. destruct (Nat.eq_dec x t) as [->|N]; [rewrite move_same in H; discriminate|rewrite move_other in H by exact N; exact (I x k H)].
      * intros x H. exact NF.
      * intros x H. destruct (Nat.eq_dec x t) as [->|N]; [rewrite move_same in H; discriminate|rewrite move_other in H by exact N; exact (U x H)].
      * intros x H. destruct (Nat.eq_dec x t) as [->|N]; [rewrite move_same in H; contradiction|rewrite move_other in H by exact N; exact (S x H)].
      * intros x q H. destruct (Nat.eq_dec x t) as [->|N]; [rewrite move_same in H; discriminate|rewrite move_other in H by exact N; exact (P x q H)].
      * intros x f H. destruct (Nat.eq_dec x t) as [->|N]; [rewrite move_same in H; destruct H; discriminate|rewrite move_other in H by exact N; exact (T x f H)].
      * intros x id H. destruct (Nat.eq_dec x t) as [->|N]; [rewrite move_same in H; discriminate|rewrite move_other in H by exact N; exact (G x id H)].
    + left. eexists. exists n. split; [reflexivity|]. split; [|lia]. destruct (j_check _ _ _ I t A) as [E|E].
      * pose proof (j_run _ _ _ I) as R. rewrite E in R. unfold after in R. cbn [firstn prun] in R. injection R as <- _. cbn [Nat.eqb]. apply (J_inside _ _ _ _ _ I); [rewrite A; exact Logic.I|left; congruence].
      * pose proof (j_run _ _ _ I) as R. rewrite (after_full m n OK) in R by lia. injection R as <- _. cbn [Nat.eqb]. apply (J_inside _ _ _ _ _ I); [rewrite A; exact Logic.I|right; auto].
    + left. pose proof (j_in _ _ _ I t k A) as ->. destruct (nth_error (section m) n) as [i|] eqn:EN.
      * destruct (after_ok m (S n) OK) as (v & d & E & e & _). pose proof E as E0. rewrite (after_S _ _ _ EN), (j_run _ _ _ I) in E. cbn [rbind] in E. rewrite one_instr_p, E. cbn [rbind fst snd]. eexists. exists (S n). split; [reflexivity|]. split; [|lia].
        assert (LN : n < length (section m)) by (apply nth_error_Some; congruence). assert (IN : inside_init (at_ s t)) by (rewrite A; exact Logic.I).
        pose proof (fun x => alone m s n t x I IN) as AL.
        assert (ST : forall x, started (at_ s x) -> 2 <= v /\ (gstate s = 3 -> v = 3)).
        { intros x Hx. pose proof (j_start _ _ _ I x Hx) as V2. split.
          - destruct (Nat.le_gt_cases 2 v) as [G|G]; [exact G|]. exfalso. destruct (after_high m n _ _ OK (j_run _ _ _ I) V2) as (e2 & E2).
            (* the state does not go down *)
            assert (Q : In (State v) (numa_phase m ++ [State 3]) \/ v = gstate s).
            { destruct i as [d0|w|w|]; cbn [pstep] in E.
              - right. destruct d0; try (injection E as <- _; reflexivity). destruct (existsb _ _); [injection E as <- _; reflexivity|discriminate].
              - injection E as <- _. left. assert (LP : length (part1 m) <= n).
                { destruct (Nat.le_gt_cases (length (part1 m)) n) as [Z|Z]; [exact Z|]. exfalso. pose proof (j_run _ _ _ I) as R. unfold after in R. rewrite section_parts, firstn_app in R. replace (n - length (part1 m)) with 0 in R by lia. cbn [firstn] in R. rewrite app_nil_r in R.
                  destruct (low m n Z) as (v0 & d0 & E3 & L0). rewrite E3 in R. injection R as R1 _. lia. }
                rewrite section_parts in EN. rewrite nth_error_app2 in EN by exact LP. exact (nth_error_In _ _ EN).
              - right. cbn [fst] in E. destruct (Nat.eqb (gstate s) w); [injection E as <- _; reflexivity|discriminate].
              - right. destruct (nodes m <=? max_node m); [injection E as <- _; reflexivity|discriminate]. }
            destruct Q as [Q|Q]; [|lia]. apply in_app_iff in Q as [Q|[Q|[]]]; [|injection Q as <-; lia]. unfold numa_phase in Q. destruct (hw m); [|exact Q]. cbn [app] in Q. destruct Q as [Q|[Q|Q]]; [discriminate|discriminate|].
            apply in_app_iff in Q as [Q|[Q|[]]]; [|discriminate]. destruct (nodes m <=? 1); [destruct Q as [Q|[]]; discriminate|]. apply in_map_iff in Q as (y & Q & _). discriminate.
          - intros G3. exfalso. pose proof (j_run _ _ _ I) as R. rewrite G3 in R. destruct (after_3 _ _ _ OK R). lia. }
        assert (GR : exists e', d = glog s ++ e') by (destruct (pstep_grows _ _ _ _ E) as (e' & H); exists e'; exact H). destruct GR as (e' & ->).
        destruct I as [R L F K I C U S P T G]. constructor; cbn [move at_ gstate glog glock].
        -- exact E0.
        -- lia.
        -- intros H. apply (K t) in IN. congruence.
        -- intros x. destruct (Nat.eqb_spec x t) as [Ex|N]; [try subst x; rewrite (K t); rewrite A; cbn; tauto|exact (K x)].
        -- intros x k H. destruct (Nat.eqb_spec x t) as [Ex|N]; [try subst x; congruence|]. exfalso. apply (AL x N). rewrite H. exact Logic.I.
        -- intros x H. destruct (Nat.eqb_spec x t) as [Ex|N]; [try subst x; discriminate|]. exfalso. apply (AL x N). rewrite H. exact Logic.I.
        -- intros x H. destruct (Nat.eqb_spec x t) as [Ex|N]; [try subst x; discriminate|]. exfalso. apply (AL x N). rewrite H. exact Logic.I.
        -- intros x H. destruct (Nat.eqb_spec x t) as [Ex|N]; [try subst x; contradiction|]. exact (proj1 (ST x H)).
        -- intros x q H. destruct (Nat.eqb_spec x t) as [Ex|N]; [try subst x; discriminate|]. destruct (P x q H) as [Q|[Q|(Q1 & Q2)]]; [left; exact Q|right; left; exact Q|]. right. right. split; [|exact Q2]. cbn [gstate]. apply (ST x); [rewrite H; exact Logic.I|exact Q1].
        -- intros x f H. destruct (Nat.eqb_spec x t) as [Ex|N]; [try subst x; destruct H; discriminate|]. exact (T x f H).
        -- intros x id H. destruct (Nat.eqb_spec x t) as [Ex|N]; [try subst x; discriminate|]. apply in_or_app. left. exact (G x id H).
      * apply nth_error_None in EN. eexists. exists n. split; [reflexivity|]. split; [|lia]. apply (J_inside _ _ _ _ _ I); [rewrite A; exact Logic.I|]. right. split; [reflexivity|]. pose proof (j_len _ _ _ I). lia.
    + left. eexists. exists n. split; [reflexivity|]. split; [|lia]. pose proof (j_unlock _ _ _ I t A) as EU. assert (G3 : gstate s = 3) by (pose proof (j_run _ _ _ I) as R; rewrite (after_full m n OK) in R by lia; injection R as <- _; reflexivity).
      assert (IN : inside_init (at_ s t)) by (rewrite A; exact Logic.I). pose proof (fun x => alone m s n t x I IN) as AL. destruct I as [R L F K I C U S P T G].
      constructor; try exact R; try exact L; cbn [with_lock glock at_ gstate glog].
      * intros _. right. exact EU.
      * intros x. destruct (Nat.eq_dec x t) as [->|N]; [rewrite move_same; cbn; split; [discriminate|tauto]|rewrite move_other by exact N]. split; [discriminate|intros H; exfalso; exact (AL x N H)].
      * intros x k H. destruct (Nat.eq_dec x t) as [->|N]; [rewrite move_same in H; discriminate|rewrite move_other in H by exact N; exact (I x k H)].
      * intros x H. destruct (Nat.eq_dec x t) as [->|N]; [rewrite move_same in H; discriminate|rewrite move_other in H by exact N; exact (C x H)].
      * intros x H. exact EU.
      * intros x H. cbn [move gstate]. lia.
      * intros x q H. destruct (Nat.eq_dec x t) as [->|N]; [rewrite move_same in H; discriminate|rewrite move_other in H by exact N; exact (P x q H)].
      * intros x f H. destruct (Nat.eq_dec x t) as [->|N]; [rewrite move_same in H; destruct H; discriminate|rewrite move_other in H by exact N; exact (T x f H)].
      * intros x id H. destruct (Nat.eq_dec x t) as [->|N]; [rewrite move_same in H; discriminate|rewrite move_other in H by exact N; exact (G x id H)].
    + left. assert (V2 : 2 <= gstate s) by (apply (j_start _ _ _ I t); rewrite A; exact Logic.I).
      rewrite (proj2 (was_done_in s EggChain)); [|apply (basics_in m EggChain s n OK I V2); unfold basics; cbn; auto]. eexists. exists n. split; [reflexivity|]. split; [|lia].
      destruct (hw m) eqn:HW; apply (J_move _ _ _ _ _ I); rewrite ?A; cbn; try tauto; try discriminate; try (intros q H; injection H as <-; right; left; auto); intros f [H|H]; discriminate.
    + left. assert (V2 : 2 <= gstate s) by (apply (j_start _ _ _ I t); rewrite A; exact Logic.I). pose proof (j_st _ _ _ I t f (or_introl A)) as HW. eexists. exists n. split; [reflexivity|]. split; [|lia].
      destruct (Nat.eqb_spec (gstate s) 1) as [G|G]; apply (J_move _ _ _ _ _ I); rewrite ?A; cbn; try tauto; try discriminate; try (intros q H; injection H as <-; left; auto); intros f' [H|H]; discriminate.
    + left. assert (V2 : 2 <= gstate s) by (apply (j_start _ _ _ I t); rewrite A; exact Logic.I). pose proof (j_st _ _ _ I t f (or_intror A)) as HW. eexists. exists n. split; [reflexivity|]. split; [|lia].
      destruct (Nat.eqb_spec (gstate s) 2) as [G|G]; [apply (J_move _ _ _ _ _ I); rewrite ?A; cbn; try tauto; try discriminate; try (intros q H; injection H as <-; left; auto); intros f' [H|H]; discriminate|].
      assert (G3 : gstate s = 3).
      { pose proof (j_run _ _ _ I) as R. destruct (Nat.eq_dec (gstate s) 3) as [E|E]; [exact E|]. exfalso. unfold after in R. rewrite section_parts, firstn_app, prun_app in R.
        assert (KP : exists y, prun m (firstn n (part1 m)) (0, []) = Ok y /\ fst y <= 2).
        { destruct (Nat.le_gt_cases (length (part1 m)) n) as [Z|Z]; [rewrite firstn_all2 by exact Z; rewrite run_part1; eexists; split; [reflexivity|cbn; lia]|].
          destruct (low m n Z) as (v0 & d0 & E3 & L0). rewrite E3. eexists. split; [reflexivity|cbn; lia]. }
        destruct KP as (y & KP & K2). rewrite KP in R. cbn [rbind] in R.
        assert (SV : forall l x x', prun m l x = Ok x' -> (forall w, In (State w) l -> w = 3) -> fst x' = fst x \/ fst x' = 3).
        { clear. induction l as [|i l IH]; intros x x' H W; cbn [prun] in H; [injection H as <-; auto|]. destruct (pstep m i x) as [x1| | |] eqn:E; cbn [rbind] in H; try discriminate.
          assert (X1 : fst x1 = fst x \/ fst x1 = 3).
          { destruct i as [d|v|v|]; cbn [pstep] in E; [destruct d; try (injection E as <-; auto); destruct (existsb _ _); [injection E as <-; auto|discriminate]| | |].
            - injection E as <-. right. exact (W v (or_introl eq_refl)).
            - destruct (Nat.eqb (fst x) v); [injection E as <-; auto|discriminate].
            - destruct (nodes m <=? max_node m); [injection E as <-; auto|discriminate]. }
          destruct (IH _ _ H (fun w K => W w (or_intror K))) as [Z|Z]; [rewrite Z; exact X1|auto]. }
        apply SV in R; [cbn [fst] in R; destruct R as [R|R]; [lia|congruence]|]. intros w Hw. assert (Hw' : In (State w) (numa_phase m ++ [State 3])) by (rewrite <- (firstn_skipn (n - length (part1 m)) (numa_phase m ++ [State 3])); apply in_or_app; left; exact Hw).
        apply in_app_iff in Hw' as [Q|[Q|[]]]; [|congruence]. unfold numa_phase in Q. rewrite HW in Q. cbn [app] in Q. destruct Q as [Q|[Q|Q]]; [discriminate|discriminate|].
        apply in_app_iff in Q as [Q|[Q|[]]]; [|discriminate]. destruct (nodes m <=? 1); [destruct Q as [Q|[]]; discriminate|]. apply in_map_iff in Q as (z & Q & _). discriminate. }
      destruct ((negb (Nat.eqb (nodes m) 0) && numa m) && negb f); apply (J_move _ _ _ _ _ I); rewrite ?A; cbn; try tauto; try discriminate; try (intros f' [H|H]; discriminate).
      * intros q H. injection H as <-. right. right. split; [exact G3|]. split; [exact HW|]. exact (proj1 V).
      * intros q H. injection H as <-. left. auto.
    + assert (V2 : 2 <= gstate s) by (apply (j_start _ _ _ I t); rewrite A; exact Logic.I). pose proof (j_pick _ _ _ I t p A) as PK. destruct V as (VO & VR).
      assert (ALL : gstate s = 3 -> glog s = all_done m) by (intros G3; pose proof (j_run _ _ _ I) as R; rewrite G3 in R; exact (proj1 (after_3 _ _ _ OK R))).
      assert (NODE : gstate s = 3 -> hw m = true -> forall i, i < nodes m -> In (Source i) (glog s)).
      { intros G3 HW i Hi. rewrite (ALL G3). unfold all_done. rewrite HW. apply in_or_app. right. apply in_or_app. left. apply in_map. apply in_seq. lia. }
      assert (DEF : hw m = true -> In (Source 128) (glog s)) by (intros HW; apply (basics_in m _ s n OK I V2); unfold basics; rewrite HW; cbn; auto).
      assert (GO : forall id, id <= max_node m -> In (Source id) (glog s) -> exists s' n', (if id <=? max_node m then (if was_done s (Source id) then Ok (move s t (Got id)) else UB) else Abort) = Ok s' /\ J m s' n' /\ n <= n').
      { intros id L HI. rewrite (proj2 (Nat.leb_le _ _) L), (proj2 (was_done_in _ _) HI). eexists. exists n. split; [reflexivity|]. split; [|lia]. apply (J_move _ _ _ _ _ I); rewrite ?A; cbn; try tauto; try discriminate; [intros f' [H|H]; discriminate|]. intros id' H. injection H as <-. exact HI. }
      destruct (hw m) eqn:HW; cbn [andb].
      * assert (MX : max_node m = 128) by (unfold max_node; rewrite HW; reflexivity). destruct (robin m) eqn:RB; cbn [andb].
        -- destruct (Nat.eqb_spec (nodes m) 0) as [N0|N0]; [right; split; [reflexivity|]; split; [unfold robin_safe; intros [Z|[Z|(_ & Z)]]; congruence|exists t, o, r, p; auto]|].
           destruct VR as [VR|VR]; [contradiction|]. destruct (Nat.eq_dec (gstate s) 3) as [G3|G3]; [left; apply GO; [unfold mach_ok in OK; lia|exact (NODE G3 eq_refl r VR)]|].
           assert (RM : r <= max_node m) by (unfold mach_ok in OK; lia). destruct (was_done s (Source r)) eqn:WD; [left; pose proof (GO r RM (proj1 (was_done_in _ _) WD)) as Z; rewrite WD in Z; exact Z|].
           right. rewrite (proj2 (Nat.leb_le _ _) RM). split; [reflexivity|]. split; [unfold robin_safe; intros [Z|[Z|(Z & _)]]; congruence|]. exists t, o, r, p. auto.
        -- left. destruct PK as [(-> & _)|[(_ & Z)|(G3 & _ & PK)]]; [apply GO; [lia|rewrite MX; exact (DEF eq_refl)]|congruence|]. destruct p as [i|]; [apply GO; [pose proof (PK i eq_refl); unfold mach_ok in OK; lia|exact (NODE G3 eq_refl i (PK i eq_refl))]|].
           apply GO; [lia|rewrite MX; exact (DEF eq_refl)].
      * left. destruct PK as [(_ & Z)|[(-> & _)|(_ & Z & _)]]; [congruence| |congruence]. apply GO; [lia|]. apply (basics_in m _ s n OK I V2). unfold basics. rewrite HW. cbn. auto.
    + left. exists s, n. split; [reflexivity|]. split; [exact I|lia].
Qed.
