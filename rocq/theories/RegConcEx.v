(** Runs of the registry given as lists of actions, for the examples and the refutations of C68. *)
From Verif Require Import Word Res RegionModel RegConcModel RegConcSpec RegConcProofs.
From Coq Require Import ZArith List Bool Lia Arith.
Import ListNotations.
Open Scope Z_scope.

(** [T]: the threads, [B]: the starts of segments used. *)
Definition within (T : list nat) (B : list Z) (s : cst) : Prop := (forall u, ~ In u T -> cat s u = PIdle) /\ (forall y, ~ In y B -> chdr s y = None).
Definition inT (T : list nat) (t : nat) : bool := existsb (Nat.eqb t) T.
Definition inB (B : list Z) (b : Z) : bool := existsb (Z.eqb b) B.
Definition holds (p b sz : Z) : bool := (b <=? p) && (p <? b + sz).
Definition validb (f d once : bool) (T : list nat) (B : list Z) (s : cst) (x : cact) : bool :=
  match x with
  | CReg t c b sz => resting (cat s t) && (4194304 <=? b) && (b + sz <=? 2 ^ 48) && (0 <? sz) && (sz mod 2097152 =? 0) && (once || (b mod 2097152 =? 0)) &&
      forallb (fun y => match chdr s y with Some (z, _) => (b + sz <=? y) || (y + z <=? b) | None => true end) B && inT T t && inB B b
  | CUnreg t b => resting (cat s t) && inT T t &&
      existsb (fun '(y, sz) => (y =? b) && forallb (fun u => match looking (cat s u) with Some p => negb (holds p b sz) | None => true end) T) (clive s)
  | CFind t p => resting (cat s t) && inT T t && (existsb (fun '(b, sz) => holds p b sz) (clive s) || (f && (0 <=? p) && (p <? 2 ^ 48)))
  | CDel t a c => d && resting (cat s t) && inT T t && negb (c =? 0) && (0 <=? a) && (a <? 2 ^ 48)
  | CGo t => inT T t
  end.
Definition valid_any (f d once : bool) (s : cst) (x : cact) : Prop :=
  cvalid once s x \/ (f = true /\ exists t p, x = CFind t p /\ resting (cat s t) = true /\ 0 <= p < 2 ^ 48) \/
  (d = true /\ exists t a c, x = CDel t a c /\ resting (cat s t) = true /\ c <> 0 /\ 0 <= a < 2 ^ 48).
Lemma inT_ok T t : inT T t = true -> In t T.
Proof. unfold inT. rewrite existsb_exists. intros (x & H & E). apply Nat.eqb_eq in E. congruence. Qed.
Lemma inB_ok B b : inB B b = true -> In b B.
Proof. unfold inB. rewrite existsb_exists. intros (x & H & E). apply Z.eqb_eq in E. congruence. Qed.
Lemma validb_any f d once T B s x : within T B s -> validb f d once T B s x = true -> valid_any f d once s x.
Proof.
  intros (W1 & W2) H. destruct x as [t c b sz|t b|t p|t a c|t]; cbn [validb] in H; rewrite ?andb_true_iff in H.
  - left. destruct H as ((((((((H1 & H2) & H3) & H4) & H5) & H6) & H7) & H8) & H9). repeat (split; [try assumption; lia|]). split; [apply orb_true_iff in H6 as [->|H6]; [left; reflexivity|right; lia]|].
    intros y z c' K. rewrite forallb_forall in H7. destruct (in_dec Z.eq_dec y B) as [I|I]; [|rewrite (W2 y I) in K; discriminate]. specialize (H7 y I). rewrite K in H7. unfold outside. lia.
  - left. destruct H as ((H1 & H2) & H3). split; [exact H1|]. apply existsb_exists in H3 as ([y sz] & L & K). apply andb_true_iff in K as (K1 & K2). apply Z.eqb_eq in K1. subst y. exists sz. split; [exact L|].
    intros u p Q. rewrite forallb_forall in K2. destruct (in_dec Nat.eq_dec u T) as [I|I]; [|rewrite (W1 u I) in Q; discriminate]. specialize (K2 u I). rewrite Q in K2. unfold holds in K2. lia.
  - destruct H as ((H1 & H2) & H3). apply orb_true_iff in H3 as [H3|H3].
    + left. split; [exact H1|]. apply existsb_exists in H3 as ([b sz] & L & K). exists b, sz. split; [exact L|]. unfold holds in K. lia.
    + right; left. apply andb_true_iff in H3 as (H3 & H4). apply andb_true_iff in H3 as (H3 & H5). split; [exact H3|]. exists t, p. split; [reflexivity|]. split; [exact H1|]. split; [apply Z.leb_le; exact H5|apply Z.ltb_lt; exact H4].
  - right; right. destruct H as (((((H1 & H2) & H3) & H4) & H5) & H6). split; [exact H1|]. exists t, a, c. split; [reflexivity|]. split; [exact H2|]. split; [intros ->; discriminate|]. split; [apply Z.leb_le; exact H5|apply Z.ltb_lt; exact H6].
  - left. exact Logic.I.
Qed.
Lemma cgo_hdr once t s s' : cgo once t s = Ok s' -> forall y, chdr s y = None -> chdr s' y = None.
Proof.
  intros H y N. assert (G : forall s1 pl, chdr s1 y = None -> Ok (go_to s1 t pl) = Ok s' -> chdr s' y = None) by (intros s1 pl Q K; injection K as <-; exact Q).
  unfold cgo in H. destruct (cat s t); try (injection H as <-; exact N); try ((refine (G _ _ _ H); exact N)).
  - unfold loop_test in H. destruct w as [b a|b a|?|?]; try discriminate; (destruct (chdr s b) as [[sz c]|] eqn:K; [|discriminate]); (destruct (a <? add64 b sz); [(refine (G _ _ _ H); exact N)|]); [(refine (G _ _ _ H); exact N)|].
    refine (G _ _ _ H). cbn. unfold zupd. destruct (y =? b); [reflexivity|exact N].
  - destruct (get_id (target w)); try discriminate. (refine (G _ _ _ H); exact N).
  - destruct (clck s); [injection H as <-; exact N|(refine (G _ _ _ H); exact N)].
  - destruct (get_id (target w)); try discriminate. (refine (G _ _ _ H); exact N).
  - destruct (get_id (target w)); try discriminate. (refine (G _ _ _ H); exact N).
  - unfold first_read in H. destruct w as [b a|b a|p|p]; [destruct (entry s r _ =? 0); [|discriminate]| |destruct once; [|]|destruct (entry s r _ =? 0); [|destruct once]]; (refine (G _ _ _ H); exact N).
  - destruct w; try discriminate; (refine (G _ _ _ H); exact N).
  - destruct (chdr s e') as [[sz c]|]; [|discriminate]. (refine (G _ _ _ H); exact N).
  - destruct (chdr s (ctabs s r i)) as [[sz d]|]; [|discriminate]. (refine (G _ _ _ H); exact N).
Qed.
Lemma within_step f d once v T B s x s' : within T B s -> validb f d v T B s x = true -> cstep once x s = Ok s' -> within T B s'.
Proof.
  intros (W1 & W2) H E.
  assert (G : forall s1 t pl, cat s1 = cat s -> (forall y, ~ In y B -> chdr s1 y = None) -> In t T -> Ok (go_to s1 t pl) = Ok s' -> within T B s').
  { intros s1 t pl Q1 Q2 It K. injection K as <-. split; [|exact Q2]. intros u N. rewrite at_go, Q1. destruct (Nat.eqb_spec u t); [subst; contradiction|exact (W1 u N)]. }
  destruct x as [t c b sz|t b|t p|t a c|t]; cbn [validb cstep] in *; rewrite ?andb_true_iff in H.
  - destruct H as ((_ & H8) & H9). refine (G (with_hdr s b (Some (sz, c))) _ _ eq_refl _ (inT_ok _ _ H8) E). intros y N. cbn. unfold zupd. destruct (Z.eqb_spec y b); [subst; destruct N; apply inB_ok; exact H9|exact (W2 y N)].
  - destruct H as ((_ & H8) & _). exact (G (with_live s _) _ _ eq_refl W2 (inT_ok _ _ H8) E).
  - destruct H as ((_ & H8) & _). exact (G _ _ _ eq_refl W2 (inT_ok _ _ H8) E).
  - destruct H as (((((_ & _) & H8) & _) & _) & _). unfold rbind in E. destruct (get_id a) as [id| | |]; try discriminate. destruct (cregs s id); [destruct (clck s); [injection E as <-; split; assumption|]|].
    + exact (G (with_lock s true) _ _ eq_refl W2 (inT_ok _ _ H8) E).
    + exact (G _ _ _ eq_refl W2 (inT_ok _ _ H8) E).
  - apply inT_ok in H. split; [|intros y N; exact (cgo_hdr _ _ _ _ E y (W2 y N))]. intros u N. rewrite (cgo_move _ _ _ _ E u) by (intros ->; contradiction). exact (W1 u N).
Qed.
Fixpoint play (f d v once : bool) (T : list nat) (B : list Z) (l : list cact) (s : cst) : option cst :=
  match l with
  | [] => Some s
  | x :: l' => if validb f d v T B s x then match cstep once x s with Ok s' => play f d v once T B l' s' | _ => None end else None
  end.
Lemma play_ok f d v once T B l s0 : forall s s', cruns (valid_any f d v) once s0 s -> within T B s -> play f d v once T B l s = Some s' -> cruns (valid_any f d v) once s0 s'.
Proof.
  induction l as [|x l IH]; intros s s' R W; cbn; [intros E; injection E as <-; exact R|]. destruct (validb f d v T B s x) eqn:V; [|discriminate]. destruct (cstep once x s) as [s1| | |] eqn:E; try discriminate.
  apply IH; [|exact (within_step _ _ _ _ _ _ _ _ _ W V E)]. exact (cruns_step _ _ _ _ _ _ R (validb_any _ _ _ _ _ _ _ W V) E).
Qed.
Lemma play_within f d v once T B l : forall s s', within T B s -> play f d v once T B l s = Some s' -> within T B s'.
Proof.
  induction l as [|x l IH]; intros s s' W; cbn; [intros E; injection E as <-; exact W|]. destruct (validb f d v T B s x) eqn:V; [|discriminate]. destruct (cstep once x s) as [s1| | |] eqn:E; try discriminate.
  apply IH. exact (within_step _ _ _ _ _ _ _ _ _ W V E).
Qed.
Lemma within_0 T B ini : within T B (c0 ini). Proof. split; reflexivity. Qed.
Lemma cruns_imp (V V' : cst -> cact -> Prop) once s0 s : (forall s x, V s x -> V' s x) -> cruns V once s0 s -> cruns V' once s0 s.
Proof. intros H R. induction R as [|s x s' _ IH Q E]; [constructor|]. exact (cruns_step _ _ _ _ _ _ IH (H _ _ Q) E). Qed.
Lemma any_plain v s x : valid_any false false v s x -> cvalid v s x.
Proof. intros [H|[(H & _)|(H & _)]]; [exact H|discriminate|discriminate]. Qed.
Lemma any_foreign v s x : valid_any true false v s x -> valid_foreign v s x.
Proof. intros [H|[(_ & H)|(H & _)]]; [left; exact H|right; exact H|discriminate]. Qed.
Lemma any_destroy v s x : valid_any false true v s x -> valid_destroy v s x.
Proof. intros [H|[(H & _)|(_ & H)]]; [left; exact H|discriminate|right; exact H]. Qed.
Lemma runs_creach once s : cruns (cvalid once) once (c0 true) s -> creach once s.
Proof. intros R. induction R as [|s x s' _ IH Q E]; [constructor|]. exact (creach_step _ _ _ _ IH Q E). Qed.
Definition got (o : option cst) : cst := match o with Some s => s | None => c0 true end.

Definition MB : Z := 1048576.
Definition T3 : list nat := [0; 1; 2]%nat.
Definition go (t : nat) (n : nat) : list cact := repeat (CGo t) n.
(** Thread 0 registers segment 5..7 MB, then 7..9 MB; thread 1 starts to look for an address of the first, at 6.5 MB. *)
Definition regs2 : list cact := CReg 0 1 (5 * MB) (2 * MB) :: go 0 11 ++ CReg 0 1 (7 * MB) (2 * MB) :: go 0 6.
Definition B2 : list Z := [5 * MB; 7 * MB].
Definition PX : Z := 6 * MB + MB / 2.
(** Thread 1 has read the entry of 7 MB once; thread 0 unregisters 7..9 MB; thread 1 goes on. *)
Definition s_double : cst := got (play false false true false T3 B2 (regs2 ++ CFind 1 PX :: go 1 2 ++ CUnreg 0 (7 * MB) :: go 0 5 ++ go 1 1) (c0 true)).
(** Thread 1 starts the initialisation and sets the flag; thread 0 registers 8..10 MB and looks for its start; thread 1 clears the table in between. *)
Definition s_init : cst :=
  got (play false false true true T3 [8 * MB; 16 * MB] (CReg 1 1 (16 * MB) (2 * MB) :: go 1 5 ++ CReg 0 1 (8 * MB) (2 * MB) :: go 0 11 ++ go 1 1 ++ CFind 0 (8 * MB) :: go 0 8) (c0 false)).
(** Thread 1 looks for 10 MB, that no segment holds, and has read the entry of 8..10 MB; thread 0 gives this segment back. *)
Definition s_foreign : cst := got (play true false true true T3 [8 * MB] (CReg 0 1 (8 * MB) (2 * MB) :: go 0 11 ++ CFind 1 (10 * MB) :: go 1 4 ++ CUnreg 0 (8 * MB) :: go 0 5) (c0 true)).
(** Thread 1 destroys chain 2 and has tested the entry of 8..10 MB (chain 1); thread 0 gives this segment back. *)
Definition s_destroy : cst := got (play false true true true T3 [8 * MB] (CReg 0 1 (8 * MB) (2 * MB) :: go 0 11 ++ CDel 1 (8 * MB) 2 :: go 1 5 ++ CUnreg 0 (8 * MB) :: go 0 5) (c0 true)).
(** Two segments that are not aligned and two lookups in progress, one of which has to read the slot before. *)
Definition s_two : cst := got (play false false true true T3 B2 (regs2 ++ CFind 1 PX :: go 1 3 ++ CFind 2 (7 * MB + 1) :: go 2 1) (c0 true)).
