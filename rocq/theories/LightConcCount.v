(** Sizes and counters of the light sources with several threads: proofs. *)
From Verif Require Import Word Res LightModel LightConcModel LightConcSpec LightConcProofs LightConcOwn.
From Coq Require Import ZArith List Bool Lia.
Import ListNotations.
Open Scope Z_scope.

Lemma tot_place (f : cplace -> Z) s t p N : (t < N)%nat ->
  total (fun u => f (place_of s t p u)) N = total (fun u => f (cat_ s u)) N - f (cat_ s t) + f p.
Proof.
  intros L. rewrite (total_upd (fun u => f (cat_ s u)) _ t N L); [rewrite place_same; reflexivity|]. intros u Nu. rewrite place_other by exact Nu. reflexivity.
Qed.
Lemma tot_src s j c n : (j < n)%nat -> total (fun i => ccnt (src_of s j c i)) n = total (fun i => ccnt (srcs s i)) n - ccnt (srcs s j) + ccnt c.
Proof.
  intros L. rewrite (total_upd (fun i => ccnt (srcs s i)) _ j n L); [rewrite src_same; reflexivity|]. intros u Nu. rewrite src_other by exact Nu. reflexivity.
Qed.

(** The size: what is removed and still counted, less what is linked and not yet counted. *)
Definition late (j : nat) (p : cplace) : Z :=
  match p with PTook i x | PDec i x => if Nat.eqb i j then snd x else 0 | PFSize i x => if Nat.eqb i j then - snd x else 0 | _ => 0 end.
Definition bound (g : lcfg) (N : nat) : Z := keep_mem g + Z.of_nat N * keep_max g.
Record ZI (g : lcfg) (N : nat) (s : lcst) : Prop := mkZI {
  zi_size : forall j, csz (srcs s j) = bytes (cq (srcs s j)) + total (fun t => late j (cat_ s t)) N;
  zi_bound : forall j, csz (srcs s j) + total (fun t => coming j (cat_ s t)) N <= bound g N;
  zi_small : forall j t, 0 <= coming j (cat_ s t) <= keep_max g;
  zi_link : forall j t x, cat_ s t = PFSize j x -> In x (cq (srcs s j)) }.
Lemma ZI_0 g N : 0 <= keep_max g -> 0 <= keep_mem g -> ZI g N lc0.
Proof.
  intros A B. split; cbn.
  - intros j. rewrite total_0; [reflexivity|reflexivity].
  - intros j. rewrite total_0; [unfold bound; lia|reflexivity].
  - intros; lia.
  - intros; discriminate.
Qed.
Lemma coming_of s g N t j : ZI g N s -> total (fun u => coming j (cat_ s u)) N - coming j (cat_ s t) <= (Z.of_nat N - 1) * keep_max g \/ (N <= t)%nat.
Proof.
  intros Z. destruct (Nat.lt_ge_cases t N) as [L|L]; [left|right; exact L].
  pose proof (total_upd (fun u => coming j (cat_ s u)) (fun u => if Nat.eqb u t then keep_max g else coming j (cat_ s u)) t N L) as E.
  cbv beta in E. rewrite Nat.eqb_refl in E.
  assert (F : total (fun u => if Nat.eqb u t then keep_max g else coming j (cat_ s u)) N <= Z.of_nat N * keep_max g).
  { apply total_le. intros u _. destruct (Nat.eqb u t); [lia|]. apply (zi_small _ _ _ Z). }
  rewrite E in F; [lia|]. intros u Nu. destruct (Nat.eqb_spec u t); [contradiction|reflexivity].
Qed.
(** The size counts at least what is in the cache; it never becomes negative. *)
Lemma size_pos g N s j : KI N s -> OI s -> ZI g N s -> 0 <= csz (srcs s j).
Proof.
  intros K O Z. rewrite (zi_size _ _ _ Z j).
  assert (P : forall x, In x (cq (srcs s j)) -> 0 < snd x) by (intros x I; apply (oi_pos _ O), (oi_in _ O (AtCache j)), I).
  assert (Hh : forall t x, hand (cat_ s t) = Some x -> 0 < snd x) by (intros t x I; apply (oi_pos _ O), (oi_in _ O (AtHand t)), I).
  assert (Cs : (exists t x, (t < N)%nat /\ cat_ s t = PFSize j x) \/ (forall t, (t < N)%nat -> 0 <= late j (cat_ s t))).
  { clear - Hh. induction N as [|N IH]; [right; intros; lia|]. destruct IH as [(t & x & L & E)|IH]; [left; exists t, x; split; [lia|exact E]|].
    assert (D : (exists x, cat_ s N = PFSize j x) \/ 0 <= late j (cat_ s N)).
    { specialize (Hh N). destruct (cat_ s N) as [|i n|i n|i x|i x|i n r|i n|i x|i x|i x|i x|i x|i|i x|i|i|i] eqn:E; cbn in *; try (right; lia).
      - right. specialize (Hh x eq_refl). destruct (Nat.eqb i j); lia.
      - right. specialize (Hh x eq_refl). destruct (Nat.eqb i j); lia.
      - destruct (Nat.eqb_spec i j) as [->|Ni]; [left; exists x; reflexivity|right; lia]. }
    destruct D as [[x E]|D]; [left; exists N, x; split; [lia|exact E]|]. right. intros t L. destruct (Nat.eq_dec t N) as [->|Nt]; [exact D|apply IH; lia]. }
  destruct Cs as [(t & x & L & E)|Cs].
  - pose proof (zi_link _ _ _ Z j t x E) as I. apply in_split in I. destruct I as (q1 & q2 & I). rewrite I in *. rewrite bytes_app, bytes_cons.
    assert (0 <= bytes q1) by (apply bytes_nonneg; intros y J; apply P, in_app_iff; now left).
    assert (0 <= bytes q2) by (apply bytes_nonneg; intros y J; apply P, in_app_iff; right; now right).
    rewrite (total_upd (fun _ => 0) (fun u => late j (cat_ s u)) t N L); [rewrite total_0 by reflexivity; rewrite E; cbn; rewrite Nat.eqb_refl; lia|].
    intros u Nu. assert (Fu : ~ locked_in j (cat_ s u)).
    { intros W. assert (W' : locked_in j (cat_ s t)) by (rewrite E; reflexivity). apply (ki_lock _ _ K) in W. apply (ki_lock _ _ K) in W'. congruence. }
    destruct (cat_ s u) as [|i n|i n|i y|i y|i n r|i n|i y|i y|i y|i y|i y|i|i y|i|i|i]; cbn in *; try reflexivity; (destruct (Nat.eqb_spec i j); [contradiction|reflexivity]).
  - pose proof (bytes_nonneg _ P). pose proof (total_ge _ _ Cs). lia.
Qed.

(** A step keeps the invariant: what is to be shown for the source concerned. *)
Lemma ZI_gen g N s s' t p j c : (t < N)%nat -> KI N s -> ZI g N s -> cat_ s' = place_of s t p ->
  (forall i, i <> j -> srcs s' i = srcs s i) -> srcs s' j = c ->
  (forall i, i <> j -> late i p = 0 /\ late i (cat_ s t) = 0 /\ coming i p = 0 /\ coming i (cat_ s t) = 0) ->
  csz c - bytes (cq c) - late j p = csz (srcs s j) - bytes (cq (srcs s j)) - late j (cat_ s t) ->
  (csz c + coming j p <= csz (srcs s j) + coming j (cat_ s t) \/ csz c + coming j p <= keep_mem g + keep_max g) ->
  0 <= coming j p <= keep_max g ->
  (forall x, In x (cq (srcs s j)) -> In x (cq c) \/ locked_in j (cat_ s t)) ->
  (forall i x, p = PFSize i x -> i = j /\ In x (cq c)) ->
  ZI g N s'.
Proof.
  intros L K Z E S1 S2 F A B B' C D. split.
  - intros i. rewrite E, (tot_place (late i)) by exact L. pose proof (zi_size _ _ _ Z i) as W.
    destruct (Nat.eq_dec i j) as [->|Ni]; [rewrite S2; lia|]. rewrite (S1 i Ni). destruct (F i Ni) as (-> & -> & _). lia.
  - intros i. rewrite E, (tot_place (coming i)) by exact L. pose proof (zi_bound _ _ _ Z i) as W.
    destruct (Nat.eq_dec i j) as [->|Ni]; [|rewrite (S1 i Ni); destruct (F i Ni) as (_ & _ & -> & ->); lia].
    rewrite S2. destruct B as [B|B]; [lia|]. destruct (coming_of s g N t j Z) as [Q|Q]; [unfold bound; nia|lia].
  - intros i u. rewrite E. destruct (Nat.eq_dec u t) as [->|Nu]; [|rewrite place_other by exact Nu; apply (zi_small _ _ _ Z)].
    rewrite place_same. destruct (Nat.eq_dec i j) as [->|Ni]; [exact B'|]. destruct (F i Ni) as (_ & _ & -> & _). pose proof (zi_small _ _ _ Z j t). lia.
  - intros i u x. rewrite E. destruct (Nat.eq_dec u t) as [->|Nu].
    + rewrite place_same. intros ->. destruct (D i x eq_refl) as [-> I]. rewrite S2. exact I.
    + rewrite place_other by exact Nu. intros Y. pose proof (zi_link _ _ _ Z i u x Y) as I. destruct (Nat.eq_dec i j) as [->|Ni]; [|rewrite (S1 i Ni); exact I].
      rewrite S2. destruct (C x I) as [I'|Q]; [exact I'|]. exfalso. assert (Q' : locked_in j (cat_ s u)) by (rewrite Y; reflexivity).
      apply (ki_lock _ _ K) in Q. apply (ki_lock _ _ K) in Q'. congruence.
Qed.
Ltac zgen g N s t j := eapply (ZI_gen g N s) with (t := t) (j := j);
  [assumption|assumption|assumption|cbn [cat_]; reflexivity|intros; cbn [srcs]; rewrite ?src_other by assumption; reflexivity|cbn [srcs]; rewrite ?src_same; reflexivity| | | | | |].
Ltac zfin j := cbn [csz cq late coming]; rewrite ?Nat.eqb_refl; cbn [locked_in];
  try (intros; match goal with N : ?i <> j |- _ => destruct (Nat.eqb_spec j i); [congruence|] end; lia); try lia; try discriminate; try tauto.
Lemma ZI_step g N S home s a s' : 0 <= keep_max g -> KI N s -> OI s -> ZI g N s -> lcok N S home s a -> lcstep g a s = Ok s' -> ZI g N s'.
Proof.
  intros Km K O Z C H. pose proof (ki_clean _ _ K) as KC.
  assert (Hh : forall t x, hand (cat_ s t) = Some x -> 0 < snd x) by (intros t x I; apply (oi_pos _ O), (oi_in _ O (AtHand t)), I).
  destruct a as [t j n|t j m|t j|t a]; cbn [lcok] in C; [| |contradiction|].
  - destruct C as (L & _ & P). cbn in H. destruct (cat_ s t) eqn:Ep; injection H as <-; try exact Z.
    destruct (n <=? keep_max g); zgen g N s t j; rewrite ?Ep; zfin j.
  - destruct C as (L & _ & Ei & h & I & _). cbn in H. rewrite Ei in H. injection H as <-.
    zgen g N s t j; rewrite ?Ei; zfin j.
  - destruct C as (L & C). cbn in H. specialize (KC t). specialize (Hh t). pose proof (fun i => zi_small _ _ _ Z i t) as Sm.
    destruct (cat_ s t) as [|j n|j n|j x|j x|j n r|j n|j x|j x|j x|j x|j x|j|j x|j|j|j] eqn:Ep; cbn in KC; try contradiction; cbn [hand] in Hh.
    + injection H as <-; exact Z.
    + destruct (clk (srcs s j)) eqn:Ec; injection H as <-; [exact Z|]. zgen g N s t j; rewrite ?Ep; zfin j.
    + destruct (take n (cq (srcs s j))) as [[x l]|] eqn:T; injection H as <-; [|zgen g N s t j; rewrite ?Ep; zfin j].
      destruct (take_split _ _ _ _ T) as (Sx & q1 & q2 & E1 & E2).
      zgen g N s t j; rewrite ?Ep; zfin j. rewrite E1, E2, !bytes_app, bytes_cons. lia.
    + injection H as <-. zgen g N s t j; rewrite ?Ep; zfin j.
    + injection H as <-. specialize (Hh x eq_refl). zgen g N s t j; rewrite ?Ep; zfin j.
    + destruct r as [x|]; injection H as <-; zgen g N s t j; rewrite ?Ep; zfin j.
    + injection H as <-. zgen g N s t j; rewrite ?Ep; zfin j.
    + injection H as <-. zgen g N s t j; rewrite ?Ep; zfin j.
    + injection H as <-. specialize (Hh x eq_refl). destruct (Z.leb_spec (snd x) (keep_max g)) as [Q1|Q1]; cbn [andb].
      * destruct (Z.leb_spec (csz (srcs s j)) (keep_mem g)) as [Q2|Q2]; zgen g N s t j; rewrite ?Ep; zfin j.
      * zgen g N s t j; rewrite ?Ep; zfin j.
    + specialize (Sm j). cbn [coming] in Sm. rewrite Nat.eqb_refl in Sm. destruct (clk (srcs s j)) eqn:Ec; injection H as <-; [exact Z|]. zgen g N s t j; rewrite ?Ep; zfin j.
    + specialize (Sm j). cbn [coming] in Sm. rewrite Nat.eqb_refl in Sm. injection H as <-. zgen g N s t j; rewrite ?Ep; zfin j.
      * rewrite bytes_cons. lia.
      * intros i y [= <- <-]. split; [reflexivity|now left].
    + specialize (Sm j). cbn [coming] in Sm. rewrite Nat.eqb_refl in Sm. injection H as <-. zgen g N s t j; rewrite ?Ep; zfin j.
    + injection H as <-. zgen g N s t j; rewrite ?Ep; zfin j.
    + destruct (existsb (seg_eqb x) (maps s)); [|discriminate]. injection H as <-. zgen g N s t j; rewrite ?Ep; zfin j.
    + injection H as <-. zgen g N s t j; rewrite ?Ep; zfin j.
Qed.

(** ** Counters *)
(** The calls that are between the moment a segment changes hands and the moment it is counted. *)
Definition owes (j : nat) (p : cplace) : Z :=
  match p with
  | PDec i _ | PUnl i _ (Some _) | PTest i _ | PFLock i _ | PFLink i _ | PFSize i _ | PFUnl i | PUnmap i _ | PFCnt i => if Nat.eqb i j then 1 else 0
  | _ => 0
  end.
Definition owe (p : cplace) : Z :=
  match p with PDec _ _ | PUnl _ _ (Some _) | PTest _ _ | PFLock _ _ | PFLink _ _ | PFSize _ _ | PFUnl _ | PUnmap _ _ | PFCnt _ => 1 | _ => 0 end.
Definition about (S : nat) (p : cplace) : Prop :=
  match p with
  | PIdle => True
  | PLock j _ | PFind j _ | PTook j _ | PDec j _ | PUnl j _ _ | PMap j _ | PCnt j _ | PTest j _ | PFLock j _ | PFLink j _ | PFSize j _ | PFUnl j | PUnmap j _ | PFCnt j
  | PCLock j | PCGo j => (j < S)%nat
  end.
Definition HI (N : nat) (s : lcst) : Prop := forall j, ccnt (srcs s j) = count_home j (held s) + total (fun t => owes j (cat_ s t)) N.
Record TI (N S : nat) (s : lcst) : Prop := mkTI {
  ti_sum : total (fun j => ccnt (srcs s j)) S = Z.of_nat (length (held s)) + total (fun t => owe (cat_ s t)) N;
  ti_about : forall t, about S (cat_ s t) }.
Lemma HI_0 N : HI N lc0.
Proof. intros j. cbn. rewrite total_0; [reflexivity|reflexivity]. Qed.
Lemma TI_0 N S : TI N S lc0.
Proof. split; [cbn; rewrite !total_0; reflexivity|intros; exact Logic.I]. Qed.
Lemma HI_gen N s s' t p j : (t < N)%nat -> HI N s -> cat_ s' = place_of s t p ->
  (forall i, i <> j -> ccnt (srcs s' i) = ccnt (srcs s i)) ->
  (forall i, i <> j -> owes i p = owes i (cat_ s t) /\ count_home i (held s') = count_home i (held s)) ->
  ccnt (srcs s' j) - count_home j (held s') - owes j p = ccnt (srcs s j) - count_home j (held s) - owes j (cat_ s t) -> HI N s'.
Proof.
  intros L Z E S1 F A i. rewrite E, (tot_place (owes i)) by exact L. specialize (Z i).
  destruct (Nat.eq_dec i j) as [->|Ni]; [lia|]. rewrite (S1 i Ni). destruct (F i Ni) as [-> ->]. lia.
Qed.
Ltac hgen N s t j := eapply (HI_gen N s) with (t := t) (j := j);
  [assumption|assumption|cbn [cat_]; reflexivity|intros; cbn [srcs]; rewrite ?src_other by assumption; reflexivity|
   cbn [held]; intros; rewrite ?home_cons|cbn [srcs held]; rewrite ?src_same; rewrite ?home_cons].
Ltac hfin j := cbn [csz cq ccnt owes snd]; rewrite ?Nat.eqb_refl;
  try (match goal with N : ?i <> j |- _ => destruct (Nat.eqb_spec j i); [congruence|] end); try (split; lia); try lia.
Lemma HI_step g N S s a s' : KI N s -> OI s -> HI N s -> lcok N S true s a -> lcstep g a s = Ok s' -> HI N s'.
Proof.
  intros K O Z C H. pose proof (ki_clean _ _ K) as KC.
  destruct a as [t j n|t j m|t j|t a]; cbn [lcok] in C; [| |contradiction|].
  - destruct C as (L & _ & P). cbn in H. destruct (cat_ s t) eqn:Ep; injection H as <-; try exact Z.
    destruct (n <=? keep_max g); hgen N s t j; rewrite ?Ep; hfin j.
  - destruct C as (L & _ & Ei & h & I & Eh). specialize (Eh eq_refl). subst h. cbn in H. rewrite Ei in H. injection H as <-.
    assert (Im : In m (map fst (held s))) by (apply in_map_iff; exists (m, j); tauto).
    destruct (drop_split m (held s) Im) as (q1 & h' & q2 & E1 & E2).
    assert (h' = j).
    { pose proof (oi_held _ O) as ND. rewrite E1, map_app in ND. cbn in ND. apply NoDup_remove_2 in ND. rewrite E1 in I. apply in_app_iff in I. cbn in I.
      rewrite in_app_iff in ND. destruct I as [I|[I|I]]; [|congruence|]; exfalso; apply ND; [left|right]; apply in_map_iff; exists (m, j); tauto. }
    subst h'. hgen N s t j; rewrite ?Ei; rewrite E2, E1, !home_app, !home_cons; hfin j.
  - destruct C as (L & C). cbn in H. specialize (KC t).
    destruct (cat_ s t) as [|j n|j n|j x|j x|j n r|j n|j x|j x|j x|j x|j x|j|j x|j|j|j] eqn:Ep; cbn in KC; try contradiction.
    + injection H as <-; exact Z.
    + destruct (clk (srcs s j)) eqn:Ec; injection H as <-; [exact Z|]. hgen N s t j; rewrite ?Ep; hfin j.
    + destruct (take n (cq (srcs s j))) as [[x l]|] eqn:T; injection H as <-; hgen N s t j; rewrite ?Ep; hfin j.
    + injection H as <-. hgen N s t j; rewrite ?Ep; hfin j.
    + injection H as <-. hgen N s t j; rewrite ?Ep; hfin j.
    + destruct r as [x|]; injection H as <-; hgen N s t j; rewrite ?Ep; hfin j.
    + injection H as <-. hgen N s t j; rewrite ?Ep; hfin j.
    + injection H as <-. hgen N s t j; rewrite ?Ep; hfin j.
    + injection H as <-. destruct ((snd x <=? keep_max g) && (csz (srcs s j) <=? keep_mem g)); hgen N s t j; rewrite ?Ep; hfin j.
    + destruct (clk (srcs s j)) eqn:Ec; injection H as <-; [exact Z|]. hgen N s t j; rewrite ?Ep; hfin j.
    + injection H as <-. hgen N s t j; rewrite ?Ep; hfin j.
    + injection H as <-. hgen N s t j; rewrite ?Ep; hfin j.
    + injection H as <-. hgen N s t j; rewrite ?Ep; hfin j.
    + destruct (existsb (seg_eqb x) (maps s)); [|discriminate]. injection H as <-. hgen N s t j; rewrite ?Ep; hfin j.
    + injection H as <-. hgen N s t j; rewrite ?Ep; hfin j.
Qed.
Lemma TI_gen N S s s' t p j c : (t < N)%nat -> TI N S s -> cat_ s' = place_of s t p -> about S p -> (j < S)%nat ->
  (srcs s' = src_of s j c \/ (srcs s' = srcs s /\ c = srcs s j)) ->
  ccnt c - Z.of_nat (length (held s')) - owe p = ccnt (srcs s j) - Z.of_nat (length (held s)) - owe (cat_ s t) -> TI N S s'.
Proof.
  intros L [Z Ab] E P Lj Q A. split.
  - rewrite E, (tot_place owe) by exact L. destruct Q as [->|[-> ->]]; [rewrite tot_src by exact Lj; lia|lia].
  - intros u. rewrite E. destruct (Nat.eq_dec u t) as [->|Nu]; [rewrite place_same; exact P|rewrite place_other by exact Nu; apply Ab].
Qed.
Ltac tgen N S s t j Lj := eapply (TI_gen N S s) with (t := t) (j := j);
  [assumption|assumption|cbn [cat_]; reflexivity|exact Lj || exact Logic.I|exact Lj|cbn [srcs]; first [left; reflexivity|right; split; reflexivity]|cbn [held length ccnt]].
Lemma TI_step g N S home s a s' : KI N s -> TI N S s -> lcok N S home s a -> lcstep g a s = Ok s' -> TI N S s'.
Proof.
  intros K Z C H. pose proof (ki_clean _ _ K) as KC.
  destruct a as [t j n|t j m|t j|t a]; cbn [lcok] in C; [| |contradiction|].
  - destruct C as (L & Lj & P). cbn in H. destruct (cat_ s t) eqn:Ep; injection H as <-; try exact Z.
    destruct (n <=? keep_max g); tgen N S s t j Lj; rewrite ?Ep; cbn [owe]; lia.
  - destruct C as (L & Lj & Ei & h & I & _). cbn in H. rewrite Ei in H. injection H as <-.
    assert (Im : In m (map fst (held s))) by (apply in_map_iff; exists (m, h); tauto).
    destruct (drop_split m (held s) Im) as (q1 & h' & q2 & E1 & E2).
    tgen N S s t j Lj; rewrite ?Ei; rewrite E2, E1, !app_length; cbn [length owe]; lia.
  - destruct C as (L & C). cbn in H. specialize (KC t). pose proof (ti_about _ _ _ Z t) as Lj.
    destruct (cat_ s t) as [|j n|j n|j x|j x|j n r|j n|j x|j x|j x|j x|j x|j|j x|j|j|j] eqn:Ep; cbn in KC; try contradiction; cbn [about] in Lj.
    + injection H as <-; exact Z.
    + destruct (clk (srcs s j)) eqn:Ec; injection H as <-; [exact Z|]. tgen N S s t j Lj; rewrite ?Ep; cbn [owe]; lia.
    + destruct (take n (cq (srcs s j))) as [[x l]|] eqn:T; injection H as <-; tgen N S s t j Lj; rewrite ?Ep; cbn [owe]; lia.
    + injection H as <-. tgen N S s t j Lj; rewrite ?Ep; cbn [owe]; lia.
    + injection H as <-. tgen N S s t j Lj; rewrite ?Ep; cbn [owe]; lia.
    + destruct r as [x|]; injection H as <-; tgen N S s t j Lj; rewrite ?Ep; cbn [owe]; lia.
    + injection H as <-. tgen N S s t j Lj; rewrite ?Ep; cbn [owe]; lia.
    + injection H as <-. tgen N S s t j Lj; rewrite ?Ep; cbn [owe]; lia.
    + injection H as <-. destruct ((snd x <=? keep_max g) && (csz (srcs s j) <=? keep_mem g)); tgen N S s t j Lj; rewrite ?Ep; cbn [owe]; lia.
    + destruct (clk (srcs s j)) eqn:Ec; injection H as <-; [exact Z|]. tgen N S s t j Lj; rewrite ?Ep; cbn [owe]; lia.
    + injection H as <-. tgen N S s t j Lj; rewrite ?Ep; cbn [owe]; lia.
    + injection H as <-. tgen N S s t j Lj; rewrite ?Ep; cbn [owe]; lia.
    + injection H as <-. tgen N S s t j Lj; rewrite ?Ep; cbn [owe]; lia.
    + destruct (existsb (seg_eqb x) (maps s)); [|discriminate]. injection H as <-. tgen N S s t j Lj; rewrite ?Ep; cbn [owe]; lia.
    + injection H as <-. tgen N S s t j Lj; rewrite ?Ep; cbn [owe]; lia.
Qed.
