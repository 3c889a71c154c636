(** Executions of several threads on light sources: the bound is reached, segments given back to another source. *)
From Verif Require Import Word Res LightModel LightConcModel LightConcSpec LightConcProofs LightConcOwn LightConcCount LightConcMore.
From Coq Require Import ZArith List Bool Lia.
Import ListNotations.
Open Scope Z_scope.

Section E.
Context (g : lcfg) (N S : nat) (home : bool).
Lemma go1 s t p : lcreach g N S home s -> (t < N)%nat -> cat_ s t = p -> (forall j n, p <> PMap j n) ->
  forall s', lcstep g (AGo t 0) s = Ok s' -> lcreach g N S home s'.
Proof. intros R L E F s' H. apply (lcreach_s g N S home s (AGo t 0)); [exact R| |exact H]. split; [exact L|]. intros j n B. subst p. now contradiction (F j n). Qed.

(** A thread asks an empty source for [n] bytes. *)
Lemma get s t j n a : lcreach g N S home s -> (t < N)%nat -> (j < S)%nat -> cat_ s t = PIdle -> clk (srcs s j) = None -> cq (srcs s j) = [] ->
  0 < n <= keep_max g -> (forall x, In x (maps s) -> apart (a, n) x) ->
  exists s', lcreach g N S home s' /\ held s' = ((a, n), j) :: held s /\ maps s' = (a, n) :: maps s /\ cat_ s' t = PIdle /\ (forall u, u <> t -> cat_ s' u = cat_ s u) /\
    srcs s' j = mkCs [] (csz (srcs s j)) (ccnt (srcs s j) + 1) None /\ (forall i, i <> j -> srcs s' i = srcs s i).
Proof.
  intros R L Lj E F Q P A.
  set (c := srcs s j) in *.
  set (s1 := mkLc (srcs s) (held s) (maps s) (place_of s t (PLock j n))).
  assert (R1 : lcreach g N S home s1).
  { apply (lcreach_s g N S home s (AReq t j n)); [exact R|split; [exact L|split; [exact Lj|lia]]|]. cbn. rewrite E. destruct (Z.leb_spec n (keep_max g)); [reflexivity|lia]. }
  set (s2 := mkLc (src_of s1 j (mkCs (cq c) (csz c) (ccnt c) (Some t))) (held s) (maps s) (place_of s1 t (PFind j n))).
  assert (R2 : lcreach g N S home s2).
  { apply (go1 s1 t (PLock j n) R1 L); [cbn; apply place_same|discriminate|]. cbn. rewrite place_same. fold c. rewrite F. reflexivity. }
  set (s3 := mkLc (srcs s2) (held s) (maps s) (place_of s2 t (PUnl j n None))).
  assert (J2 : srcs s2 j = mkCs (cq c) (csz c) (ccnt c) (Some t)) by (cbn; apply src_same).
  assert (R3 : lcreach g N S home s3).
  { apply (go1 s2 t (PFind j n) R2 L); [cbn; apply place_same|discriminate|]. cbn [lcstep]. replace (cat_ s2 t) with (PFind j n) by (cbn; rewrite place_same; reflexivity). cbv beta iota zeta. rewrite J2. cbn [cq]. rewrite Q. reflexivity. }
  set (s4 := mkLc (src_of s3 j (mkCs (cq c) (csz c) (ccnt c) None)) (held s) (maps s) (place_of s3 t (PMap j n))).
  assert (R4 : lcreach g N S home s4).
  { apply (go1 s3 t (PUnl j n None) R3 L); [cbn; apply place_same|discriminate|]. cbn [lcstep]. replace (cat_ s3 t) with (PUnl j n None) by (cbn; rewrite place_same; reflexivity). cbv beta iota zeta. change (srcs s3 j) with (srcs s2 j). rewrite J2. reflexivity. }
  set (s5 := mkLc (srcs s4) (held s) ((a, n) :: maps s) (place_of s4 t (PCnt j (a, n)))).
  assert (R5 : lcreach g N S home s5).
  { apply (lcreach_s g N S home s4 (AGo t a)); [exact R4| |cbn [lcstep]; replace (cat_ s4 t) with (PMap j n) by (cbn; rewrite place_same; reflexivity); reflexivity].
    split; [exact L|]. intros j' n' B. replace (cat_ s4 t) with (PMap j n) in B by (cbn; rewrite place_same; reflexivity). injection B as <- <-. exact A. }
  assert (J4 : srcs s4 j = mkCs (cq c) (csz c) (ccnt c) None) by (cbn; apply src_same).
  set (s6 := mkLc (src_of s5 j (mkCs (cq c) (csz c) (ccnt c + 1) None)) (((a, n), j) :: held s) ((a, n) :: maps s) (place_of s5 t PIdle)).
  assert (R6 : lcreach g N S home s6).
  { apply (go1 s5 t (PCnt j (a, n)) R5 L); [cbn; apply place_same|discriminate|]. cbn [lcstep]. replace (cat_ s5 t) with (PCnt j (a, n)) by (cbn; rewrite place_same; reflexivity). cbv beta iota zeta. change (srcs s5 j) with (srcs s4 j). rewrite J4. reflexivity. }
  exists s6. split; [exact R6|]. split; [reflexivity|]. split; [reflexivity|]. split; [cbn; apply place_same|]. split.
  - intros u Nu. cbn. rewrite !place_other by exact Nu. cbn. rewrite !place_other by exact Nu. cbn. rewrite !place_other by exact Nu. cbn. rewrite !place_other by exact Nu. cbn. rewrite !place_other by exact Nu. cbn. rewrite !place_other by exact Nu. reflexivity.
  - split; [cbn; rewrite src_same, Q; reflexivity|]. intros i Ni. cbn. rewrite !src_other by exact Ni. cbn. rewrite !src_other by exact Ni. cbn. rewrite !src_other by exact Ni. reflexivity.
Qed.
(** A thread begins to give the newest segment to source [j] and finds that it should be kept. *)
Lemma test s t j x h r : lcreach g N S home s -> (t < N)%nat -> (j < S)%nat -> cat_ s t = PIdle -> held s = (x, h) :: r -> (home = true -> h = j) ->
  snd x <= keep_max g -> csz (srcs s j) <= keep_mem g ->
  exists s', lcreach g N S home s' /\ held s' = r /\ cat_ s' t = PFLock j x /\ (forall u, u <> t -> cat_ s' u = cat_ s u) /\ srcs s' = srcs s.
Proof.
  intros R L Lj E Hh Ho P Z.
  set (s1 := mkLc (srcs s) r (maps s) (place_of s t (PTest j x))).
  assert (R1 : lcreach g N S home s1).
  { apply (lcreach_s g N S home s (AFree t j x)); [exact R| |].
    - split; [exact L|]. split; [exact Lj|]. split; [exact E|]. exists h. split; [rewrite Hh; now left|exact Ho].
    - cbn. rewrite E, Hh. cbn. destruct (seg_eqb_spec x x); [reflexivity|contradiction]. }
  exists (mkLc (srcs s) r (maps s) (place_of s1 t (PFLock j x))). split; [|split; [reflexivity|split; [cbn; apply place_same|split; [|reflexivity]]]].
  - apply (go1 s1 t (PTest j x) R1 L); [cbn; apply place_same|discriminate|]. cbn. rewrite place_same.
    destruct (Z.leb_spec (snd x) (keep_max g)); [|lia]. destruct (Z.leb_spec (csz (srcs s j)) (keep_mem g)); [reflexivity|lia].
  - intros u Nu. cbn. rewrite !place_other by exact Nu. cbn. rewrite !place_other by exact Nu. reflexivity.
Qed.
(** It puts it in the cache. *)
Lemma put_in s t j x : lcreach g N S home s -> (t < N)%nat -> cat_ s t = PFLock j x -> clk (srcs s j) = None ->
  exists s', lcreach g N S home s' /\ held s' = held s /\ cat_ s' t = PIdle /\ (forall u, u <> t -> cat_ s' u = cat_ s u) /\
    srcs s' j = mkCs (x :: cq (srcs s j)) (csz (srcs s j) + snd x) (ccnt (srcs s j) - 1) None /\ (forall i, i <> j -> srcs s' i = srcs s i).
Proof.
  intros R L E F.
  set (c := srcs s j) in *.
  set (s1 := mkLc (src_of s j (mkCs (cq c) (csz c) (ccnt c) (Some t))) (held s) (maps s) (place_of s t (PFLink j x))).
  assert (R1 : lcreach g N S home s1).
  { apply (go1 s t (PFLock j x) R L E); [discriminate|]. cbn. rewrite E. fold c. rewrite F. reflexivity. }
  assert (J1 : srcs s1 j = mkCs (cq c) (csz c) (ccnt c) (Some t)) by (cbn; apply src_same).
  set (s2 := mkLc (src_of s1 j (mkCs (x :: cq c) (csz c) (ccnt c) (Some t))) (held s) (maps s) (place_of s1 t (PFSize j x))).
  assert (R2 : lcreach g N S home s2).
  { apply (go1 s1 t (PFLink j x) R1 L); [cbn; apply place_same|discriminate|]. cbn [lcstep]. replace (cat_ s1 t) with (PFLink j x) by (cbn; rewrite place_same; reflexivity). cbv beta iota zeta. rewrite J1. reflexivity. }
  assert (J2 : srcs s2 j = mkCs (x :: cq c) (csz c) (ccnt c) (Some t)) by (cbn; apply src_same).
  set (s3 := mkLc (src_of s2 j (mkCs (x :: cq c) (csz c + snd x) (ccnt c) (Some t))) (held s) (maps s) (place_of s2 t (PFUnl j))).
  assert (R3 : lcreach g N S home s3).
  { apply (go1 s2 t (PFSize j x) R2 L); [cbn; apply place_same|discriminate|]. cbn [lcstep]. replace (cat_ s2 t) with (PFSize j x) by (cbn; rewrite place_same; reflexivity). cbv beta iota zeta. rewrite J2. reflexivity. }
  assert (J3 : srcs s3 j = mkCs (x :: cq c) (csz c + snd x) (ccnt c) (Some t)) by (cbn; apply src_same).
  set (s4 := mkLc (src_of s3 j (mkCs (x :: cq c) (csz c + snd x) (ccnt c) None)) (held s) (maps s) (place_of s3 t (PFCnt j))).
  assert (R4 : lcreach g N S home s4).
  { apply (go1 s3 t (PFUnl j) R3 L); [cbn; apply place_same|discriminate|]. cbn [lcstep]. replace (cat_ s3 t) with (PFUnl j) by (cbn; rewrite place_same; reflexivity). cbv beta iota zeta. rewrite J3. reflexivity. }
  assert (J4 : srcs s4 j = mkCs (x :: cq c) (csz c + snd x) (ccnt c) None) by (cbn; apply src_same).
  set (s5 := mkLc (src_of s4 j (mkCs (x :: cq c) (csz c + snd x) (ccnt c - 1) None)) (held s) (maps s) (place_of s4 t PIdle)).
  assert (R5 : lcreach g N S home s5).
  { apply (go1 s4 t (PFCnt j) R4 L); [cbn; apply place_same|discriminate|]. cbn [lcstep]. replace (cat_ s4 t) with (PFCnt j) by (cbn; rewrite place_same; reflexivity). cbv beta iota zeta. rewrite J4. reflexivity. }
  exists s5. split; [exact R5|]. split; [reflexivity|]. split; [cbn; apply place_same|]. split.
  - intros u Nu. cbn. rewrite !place_other by exact Nu. cbn. rewrite !place_other by exact Nu. cbn. rewrite !place_other by exact Nu. cbn. rewrite !place_other by exact Nu. cbn. rewrite !place_other by exact Nu. reflexivity.
  - split; [cbn; rewrite src_same; reflexivity|]. intros i Ni. cbn. rewrite !src_other by exact Ni. cbn. rewrite !src_other by exact Ni. cbn. rewrite !src_other by exact Ni. cbn. rewrite !src_other by exact Ni. cbn. rewrite !src_other by exact Ni. reflexivity.
Qed.
End E.

(** Segments one after the other, newest first. *)
Definition sg (m : Z) (k : nat) : Z * Z := (Z.of_nat k * m, m).
Fixpoint hs (m : Z) (k : nat) : list (Z * Z * nat) := match k with O => [] | S k => (sg m k, O) :: hs m k end.
Fixpoint ms (m : Z) (k : nat) : list (Z * Z) := match k with O => [] | S k => sg m k :: ms m k end.
Lemma ms_apart m k x : 0 < m -> In x (ms m k) -> apart (sg m k) x.
Proof.
  intros P. assert (G : In x (ms m k) -> exists i, (i < k)%nat /\ x = sg m i).
  { induction k as [|k IH]; cbn; [contradiction|]. intros [<-|I]; [exists k; split; [lia|reflexivity]|]. destruct (IH I) as (i & L & E). exists i. split; [lia|exact E]. }
  intros I. destruct (G I) as (i & L & ->). right. unfold sg; cbn. nia.
Qed.
Section Full.
Context (g : lcfg) (N S : nat).
Context (Km : 0 < keep_max g) (L0 : (0 < N)%nat) (LS : (0 < S)%nat).
Let m := keep_max g.
Lemma phase_get k : exists s, lcreach g N S true s /\ calm_lc s /\ held s = hs m k /\ maps s = ms m k /\ clk (srcs s 0%nat) = None /\ cq (srcs s 0%nat) = [] /\ csz (srcs s 0%nat) = 0.
Proof.
  induction k as [|k (s & R & C & Eh & Em & F & Q & Z)].
  - exists lc0. split; [constructor|]. split; [intros t; reflexivity|]. repeat split; reflexivity.
  - destruct (get g N S true s 0 0 m (Z.of_nat k * m) R L0 LS (C 0%nat) F Q) as (s' & R' & Eh' & Em' & C0 & Co & Sj & _).
    + unfold m. lia.
    + intros x I. rewrite Em in I. exact (ms_apart m k x Km I).
    + exists s'. split; [exact R'|]. split; [intros t; destruct (Nat.eq_dec t 0) as [->|Nt]; [exact C0|rewrite Co by exact Nt; apply C]|].
      rewrite Eh', Em', Eh, Em, Sj. cbn. repeat split; auto.
Qed.
(** [q] segments are put in the cache by one thread while this is allowed. *)
Lemma phase_fill q k : Z.of_nat q * m <= keep_mem g + m -> exists s, lcreach g N S true s /\ calm_lc s /\ held s = hs m k /\ clk (srcs s 0%nat) = None /\ csz (srcs s 0%nat) = Z.of_nat q * m.
Proof.
  revert k; induction q as [|q IH]; intros k B.
  - destruct (phase_get k) as (s & R & C & Eh & _ & F & _ & Z). exists s. split; [exact R|]. split; [exact C|]. split; [exact Eh|]. split; [exact F|lia].
  - destruct (IH (Datatypes.S k)) as (s & R & C & Eh & F & Z); [unfold m in *; lia|]. cbn [hs] in Eh.
    destruct (test g N S true s 0 0 _ _ _ R L0 LS (C 0%nat) Eh) as (s1 & R1 & Eh1 & C1 & Co1 & Es1); [reflexivity|unfold m; cbn; lia|unfold m in *; lia|].
    destruct (put_in g N S true s1 0 0 _ R1 L0 C1) as (s2 & R2 & Eh2 & C2 & Co2 & Sj & _); [rewrite Es1; exact F|].
    exists s2. split; [exact R2|]. split.
    + intros t. destruct (Nat.eq_dec t 0) as [->|Nt]; [exact C2|]. rewrite Co2, Co1 by exact Nt. apply C.
    + split; [congruence|]. rewrite Sj, Es1. cbn [clk csz]. split; [reflexivity|]. cbn [sg snd]. lia.
Qed.
(** All the threads pass the test. *)
Lemma phase_test q k : Z.of_nat q * m <= keep_mem g -> (k <= N)%nat ->
  exists s, lcreach g N S true s /\ (forall t, (t < k)%nat -> exists x, cat_ s t = PFLock 0 x /\ snd x = m) /\ (forall t, (k <= t)%nat -> cat_ s t = PIdle) /\
    held s = hs m (N - k) /\ clk (srcs s 0%nat) = None /\ csz (srcs s 0%nat) = Z.of_nat q * m.
Proof.
  intros B. induction k as [|k IH]; intros Lk.
  - destruct (phase_fill q N) as (s & R & C & Eh & F & Z); [unfold m; lia|]. exists s. split; [exact R|]. split; [intros; lia|]. split; [intros; apply C|].
    split; [now rewrite Nat.sub_0_r|]. split; assumption.
  - destruct IH as (s & R & C1 & C2 & Eh & F & Z); [lia|].
    replace (N - k)%nat with (Datatypes.S (N - Datatypes.S k)) in Eh by lia. cbn [hs] in Eh.
    destruct (test g N S true s k 0 (sg m (N - Datatypes.S k)) 0%nat (hs m (N - Datatypes.S k)) R) as (s1 & R1 & Eh1 & C' & Co & Es1); [lia|exact LS|apply C2; lia|exact Eh|reflexivity|unfold m; cbn; lia|lia|].
    exists s1. split; [exact R1|]. split; [|split; [|split; [exact Eh1|rewrite Es1; split; assumption]]].
    + intros t Lt. destruct (Nat.eq_dec t k) as [->|Nt]; [eexists; split; [exact C'|reflexivity]|]. rewrite Co by exact Nt. apply C1. lia.
    + intros t Lt. rewrite Co by lia. apply C2. lia.
Qed.
(** Then they all put their segment in the cache. *)
Lemma phase_put q k : Z.of_nat q * m <= keep_mem g -> (k <= N)%nat ->
  exists s, lcreach g N S true s /\ (forall t, (k <= t < N)%nat -> exists x, cat_ s t = PFLock 0 x /\ snd x = m) /\ (forall t, (t < k)%nat \/ (N <= t)%nat -> cat_ s t = PIdle) /\
    held s = [] /\ clk (srcs s 0%nat) = None /\ csz (srcs s 0%nat) = Z.of_nat q * m + Z.of_nat k * m.
Proof.
  intros B. induction k as [|k IH]; intros Lk.
  - destruct (phase_test q N B (Nat.le_refl N)) as (s & R & C1 & C2 & Eh & F & Z). exists s. split; [exact R|]. split; [intros t Lt; apply C1; lia|]. split; [intros t Lt; apply C2; lia|].
    rewrite Nat.sub_diag in Eh. split; [exact Eh|]. split; [exact F|lia].
  - destruct IH as (s & R & C1 & C2 & Eh & F & Z); [lia|]. destruct (C1 k) as (x & Ek & Sx); [lia|].
    destruct (put_in g N S true s k 0 x R) as (s2 & R2 & Eh2 & C' & Co & Sj & _); [lia|exact Ek|exact F|].
    exists s2. split; [exact R2|]. split; [|split; [|split; [congruence|rewrite Sj; cbn [clk csz]; split; [reflexivity|lia]]]].
    + intros t Lt. rewrite Co by lia. apply C1. lia.
    + intros t Lt. destruct (Nat.eq_dec t k) as [->|Nt]; [exact C'|]. rewrite Co by exact Nt. apply C2. lia.
Qed.
Lemma bound_reached q : keep_mem g = Z.of_nat q * keep_max g ->
  exists s, lcreach g N S true s /\ calm_lc s /\ held s = [] /\ csz (srcs s 0%nat) = bound g N /\ bytes (cq (srcs s 0%nat)) = bound g N.
Proof.
  intros E. destruct (phase_put q N) as (s & R & _ & C & Eh & F & Z); [unfold m; lia|lia|].
  assert (W : wfg g) by (split; [|rewrite E]; lia).
  pose proof (size_exact _ _ _ _ s 0%nat W R F) as X. exists s. split; [exact R|]. split; [intros t; apply C; lia|]. split; [exact Eh|].
  assert (csz (srcs s 0%nat) = bound g N) by (unfold bound; unfold m in Z; lia). split; [assumption|lia].
Qed.
End Full.

(** One segment asked from source 0 and given to source 1. *)
Lemma migrated g N S : 0 < keep_max g -> 0 <= keep_mem g -> (0 < N)%nat -> (1 < S)%nat ->
  exists s, lcreach g N S false s /\ calm_lc s /\ held s = [] /\ ccnt (srcs s 0%nat) = 1 /\ ccnt (srcs s 1%nat) = -1 /\ clk (srcs s 0%nat) = None /\ clk (srcs s 1%nat) = None.
Proof.
  intros Km Kk L0 LS.
  destruct (get g N S false lc0 0 0 (keep_max g) 0 (lcreach_0 g N S false) L0) as (s & R & Eh & Em & C0 & Co & Sj & So); try reflexivity; [lia|lia|intros x []|].
  cbn in Eh. assert (Z1 : srcs s 1%nat = mkCs [] 0 0 None) by (rewrite So by lia; reflexivity).
  destruct (test g N S false s 0 1 _ _ _ R L0 LS C0 Eh) as (s1 & R1 & Eh1 & C1 & Co1 & Es1); [discriminate|cbn; lia|rewrite Z1; cbn; lia|].
  destruct (put_in g N S false s1 0 1 _ R1 L0 C1) as (s2 & R2 & Eh2 & C2 & Co2 & Sj2 & So2); [rewrite Es1, Z1; reflexivity|].
  exists s2. split; [exact R2|]. split.
  - intros t. destruct (Nat.eq_dec t 0) as [->|Nt]; [exact C2|]. rewrite Co2, Co1, Co by exact Nt. reflexivity.
  - split; [congruence|]. rewrite Sj2, (So2 0%nat), Es1, Sj, Z1 by lia. cbn. repeat split; reflexivity.
Qed.
(** Cleaning up a source whose counter is not null aborts. *)
Lemma clean_aborts g s t j : cat_ s t = PIdle -> clk (srcs s j) = None -> ccnt (srcs s j) <> 0 ->
  exists s', lcruns g s [AClean t j; AGo t 0] s' /\ lcstep g (AGo t 0) s' = Abort.
Proof.
  intros C F Z.
  set (s1 := mkLc (srcs s) (held s) (maps s) (place_of s t (PCLock j))).
  set (s2 := mkLc (src_of s1 j (mkCs (cq (srcs s j)) (csz (srcs s j)) (ccnt (srcs s j)) (Some t))) (held s) (maps s) (place_of s1 t (PCGo j))).
  assert (H1 : lcstep g (AClean t j) s = Ok s1) by (cbn; rewrite C; reflexivity).
  assert (H2 : lcstep g (AGo t 0) s1 = Ok s2) by (cbn; rewrite place_same, F; reflexivity).
  exists s2. split; [econstructor; [exact H1|econstructor; [exact H2|constructor]]|].
  cbn [lcstep]. replace (cat_ s2 t) with (PCGo j) by (cbn; rewrite place_same; reflexivity). cbv beta iota zeta.
  replace (srcs s2 j) with (mkCs (cq (srcs s j)) (csz (srcs s j)) (ccnt (srcs s j)) (Some t)) by (cbn; rewrite src_same; reflexivity). cbn [ccnt].
  destruct (Z.eqb_spec (ccnt (srcs s j)) 0); [contradiction|reflexivity].
Qed.
