(** Every text of the environment variables. *)
From Verif Require Import Word Res ConfigModel ConfigSpec ConfigProofs.
From Coq Require Import ZArith String Ascii List Bool Lia.
Import ListNotations.
Local Open Scope string_scope.
Open Scope Z_scope.

Lemma char_code c : c = ascii_of_N (Z.to_N (code c)).
Proof. unfold code. rewrite N2Z.id. symmetry. apply ascii_N_embedding. Qed.
Lemma code_of n : (n < 256)%N -> code (ascii_of_N n) = Z.of_N n.
Proof. intros H. unfold code. rewrite N_ascii_embedding by exact H. reflexivity. Qed.
Lemma is_space_blank c : is_space c = true <-> blank c.
Proof.
  unfold is_space, blank. split.
  - intros H. rewrite (char_code c). rewrite orb_true_iff, andb_true_iff, Z.eqb_eq, !Z.leb_le in H.
    assert (K : code c = 32 \/ code c = 9 \/ code c = 10 \/ code c = 11 \/ code c = 12 \/ code c = 13) by lia.
    cbn [map In]. destruct K as [K|[K|[K|[K|[K|K]]]]]; rewrite K; cbn [Z.to_N]; auto 10.
  - cbn [map In]. intros H. repeat (destruct H as [<-|H]; [reflexivity|]). destruct H.
Qed.
Lemma is_digit_digit c : is_digit c = true <-> digit c.
Proof.
  unfold is_digit, digit. split.
  - intros H. rewrite (char_code c). rewrite andb_true_iff, !Z.leb_le in H.
    assert (K : code c = 48 \/ code c = 49 \/ code c = 50 \/ code c = 51 \/ code c = 52 \/ code c = 53 \/ code c = 54 \/ code c = 55 \/ code c = 56 \/ code c = 57) by lia.
    cbn [map In]. repeat (destruct K as [K|K]; [rewrite K; cbn [Z.to_N]; auto 12|]). rewrite K; cbn [Z.to_N]; auto 12.
  - cbn [map In]. intros H. repeat (destruct H as [<-|H]; [reflexivity|]). destruct H.
Qed.

(** The digits and what follows. *)
Lemma digits_value : forall ds rest acc, each digit ds -> ~ starts digit rest -> digits acc (ds ++ rest) = acc * 10 ^ Z.of_nat (String.length ds) + value ds.
Proof.
  induction ds as [|c ds IH]; intros rest acc D R.
  - cbn [append String.length value]. change (10 ^ Z.of_nat 0) with 1. destruct rest as [|c s]; cbn [digits]; [lia|].
    destruct (is_digit c) eqn:E; [exfalso; apply R; apply is_digit_digit; exact E|lia].
  - destruct D as [D1 D2]. cbn [append digits value]. rewrite (proj2 (is_digit_digit c) D1). rewrite (IH rest _ D2 R).
    fold (code c). cbn [String.length]. rewrite Nat2Z.inj_succ, Z.pow_succ_r by lia. ring.
Qed.
Lemma split_digits : forall s, exists ds rest, s = ds ++ rest /\ each digit ds /\ ~ starts digit rest.
Proof.
  induction s as [|c s (ds & rest & E & D & R)].
  - exists "", "". split; [reflexivity|]. split; [exact Logic.I|]. intros H; exact H.
  - destruct (is_digit c) eqn:K.
    + exists (String c ds), rest. split; [cbn; rewrite E; reflexivity|]. split; [split; [apply is_digit_digit; exact K|exact D]|exact R].
    + exists "", (String c s). split; [reflexivity|]. split; [exact Logic.I|]. cbn. intros H. apply is_digit_digit in H. congruence.
Qed.
Lemma skip_blank : forall w s, each blank w -> skip_spaces (w ++ s) = skip_spaces s.
Proof. induction w as [|c w IH]; intros s H; [reflexivity|]. destruct H as [H1 H2]. cbn. rewrite (proj2 (is_space_blank c) H1). exact (IH s H2). Qed.
Lemma split_blank : forall s, exists w, s = w ++ skip_spaces s /\ each blank w /\ ~ starts blank (skip_spaces s).
Proof.
  induction s as [|c s (w & E & B & N)].
  - exists "". split; [reflexivity|]. split; [exact Logic.I|]. intros H; exact H.
  - cbn [skip_spaces]. destruct (is_space c) eqn:K.
    + exists (String c w). split; [cbn; rewrite <- E; reflexivity|]. split; [split; [apply is_space_blank; exact K|exact B]|exact N].
    + exists "". split; [reflexivity|]. split; [exact Logic.I|]. cbn. intros H. apply is_space_blank in H. congruence.
Qed.
Lemma clamp_long z : clamp z = to_long z.
Proof.
  unfold clamp, to_long. rewrite S63_val. change (2 ^ 63) with 9223372036854775808.
  destruct (Z.ltb_spec z (Z.opp 9223372036854775808)); [lia|]. destruct (Z.ltb_spec (9223372036854775808 - 1) z); lia.
Qed.
Lemma digit_range c : digit c -> 48 <= code c <= 57.
Proof. intros H. apply is_digit_digit in H. unfold is_digit in H. lia. Qed.

(** Every text is read as one number. *)
Lemma reads_atol : forall s z, reads s z -> atol s = to_long z.
Proof.
  intros s z (w & g & k & ds & rest & -> & B & SG & D & R & NG & ->). rewrite <- clamp_long. unfold atol. rewrite (skip_blank _ _ B).
  destruct SG.
  - replace (1 * value ds) with (value ds) by lia. cbn [append]. destruct ds as [|c ds].
    + cbn [append value]. destruct (NG eq_refl eq_refl) as (N1 & N2). destruct rest as [|c s]; [reflexivity|]. cbn [skip_spaces].
      destruct (is_space c) eqn:K; [exfalso; apply N1; apply is_space_blank; exact K|].
      destruct (Z.eqb_spec (code c) 45) as [E|E]; [exfalso; apply N2; right; rewrite (char_code c), E; reflexivity|].
      destruct (Z.eqb_spec (code c) 43) as [E3|E3]; [exfalso; apply N2; left; rewrite (char_code c), E3; reflexivity|].
      f_equal. exact (digits_value "" (String c s) 0 Logic.I R).
    + pose proof (digits_value (String c ds) rest 0 D R) as V. cbn [append] in *. destruct D as [D1 D2]. pose proof (digit_range c D1) as DR.
      cbn [skip_spaces]. assert (SP : is_space c = false) by (unfold is_space; lia). rewrite SP.
      destruct (Z.eqb_spec (code c) 45) as [E|E]; [lia|]. destruct (Z.eqb_spec (code c) 43) as [E3|E3]; [lia|]. f_equal. exact V.
  - cbn [append skip_spaces]. change (is_space "+") with false. cbv iota. change (code "+" =? 45) with false. change (code "+" =? 43) with true. cbv iota.
    f_equal. rewrite (digits_value ds rest 0 D R). lia.
  - cbn [append skip_spaces]. change (is_space "-") with false. cbv iota. change (code "-" =? 45) with true. cbv iota.
    f_equal. rewrite (digits_value ds rest 0 D R). lia.
Qed.
Lemma reads_some : forall s, exists z, reads s z.
Proof.
  intros s. destruct (split_blank s) as (w & E & B & N). destruct (skip_spaces s) as [|c t] eqn:K.
  - exists (1 * value ""). exists w, "", 1, "", "". split; [exact E|]. split; [exact B|]. split; [constructor|]. split; [exact Logic.I|].
    split; [intros H; exact H|]. split; [|reflexivity]. intros _ _. split; intros H; exact H.
  - destruct (Ascii.eqb_spec c "+") as [->|N1]; [|destruct (Ascii.eqb_spec c "-") as [->|N2]].
    + destruct (split_digits t) as (ds & rest & -> & D & R). exists (1 * value ds). exists w, "+", 1, ds, rest.
      split; [exact E|]. split; [exact B|]. split; [constructor|]. split; [exact D|]. split; [exact R|]. split; [discriminate|reflexivity].
    + destruct (split_digits t) as (ds & rest & -> & D & R). exists (-1 * value ds). exists w, "-", (-1), ds, rest.
      split; [exact E|]. split; [exact B|]. split; [constructor|]. split; [exact D|]. split; [exact R|]. split; [discriminate|reflexivity].
    + destruct (split_digits (String c t)) as (ds & rest & ET & D & R). exists (1 * value ds). exists w, "", 1, ds, rest.
      split; [rewrite E, ET; reflexivity|]. split; [exact B|]. split; [constructor|]. split; [exact D|]. split; [exact R|]. split; [|reflexivity].
      intros _ ->. cbn [append] in ET. subst rest. split; [exact N|]. intros [H|H]; [exact (N1 H)|exact (N2 H)].
Qed.
(** Different readings would need different numbers; the number is determined up to the range of [long] by [reads_atol].  It is
    also unique. *)
Lemma value_bound : forall ds, each digit ds -> 0 <= value ds.
Proof.
  induction ds as [|c ds IH]; intros H; cbn [value]; [lia|]. destruct H as [H1 H2]. pose proof (digit_range c H1) as R. fold (code c). specialize (IH H2).
  assert (0 <= 10 ^ Z.of_nat (String.length ds)) by (apply Z.pow_nonneg; lia). nia.
Qed.
Definition raw (s : string) : Z :=
  match skip_spaces s with
  | String c s' => if code c =? 45 then - digits 0 s' else if code c =? 43 then digits 0 s' else digits 0 (String c s')
  | EmptyString => 0
  end.
Lemma reads_raw : forall s z, reads s z -> raw s = z.
Proof.
  intros s z (w & g & k & ds & rest & -> & B & SG & D & R & NG & ->). unfold raw. rewrite (skip_blank _ _ B).
  destruct SG.
  - replace (1 * value ds) with (value ds) by lia. cbn [append]. destruct ds as [|c ds].
    + cbn [append value]. destruct (NG eq_refl eq_refl) as (N1 & N2). destruct rest as [|c s]; [reflexivity|]. cbn [skip_spaces].
      destruct (is_space c) eqn:K; [exfalso; apply N1; apply is_space_blank; exact K|].
      destruct (Z.eqb_spec (code c) 45) as [E|E]; [exfalso; apply N2; right; rewrite (char_code c), E; reflexivity|].
      destruct (Z.eqb_spec (code c) 43) as [E3|E3]; [exfalso; apply N2; left; rewrite (char_code c), E3; reflexivity|].
      exact (digits_value "" (String c s) 0 Logic.I R).
    + pose proof (digits_value (String c ds) rest 0 D R) as V. cbn [append] in *. destruct D as [D1 D2]. pose proof (digit_range c D1) as DR.
      cbn [skip_spaces]. assert (SP : is_space c = false) by (unfold is_space; lia). rewrite SP.
      destruct (Z.eqb_spec (code c) 45) as [E|E]; [lia|]. destruct (Z.eqb_spec (code c) 43) as [E3|E3]; [lia|]. exact V.
  - cbn [append skip_spaces]. change (is_space "+") with false. cbv iota. change (code "+" =? 45) with false. change (code "+" =? 43) with true. cbv iota.
    rewrite (digits_value ds rest 0 D R). lia.
  - cbn [append skip_spaces]. change (is_space "-") with false. cbv iota. change (code "-" =? 45) with true. cbv iota.
    rewrite (digits_value ds rest 0 D R). lia.
Qed.
Lemma reads_one : forall s, exists z, reads s z /\ forall z', reads s z' -> z' = z.
Proof. intros s. destruct (reads_some s) as (z & H). exists z. split; [exact H|]. intros z' H'. rewrite <- (reads_raw s z H). symmetry. exact (reads_raw s z' H'). Qed.

Lemma w64_mod x : w64 x = x mod 2 ^ 64.
Proof. unfold w64. rewrite W64_val. reflexivity. Qed.
Lemma get_size_any : forall e v d u, size_any e v u d (get_size e v d u).
Proof.
  intros e v d u. unfold get_size. destruct (e v) as [[|c s]|] eqn:E.
  - left. split; [right; exact E|reflexivity].
  - right. destruct (reads_some (String c s)) as (z & H). exists (String c s), z. split; [exact E|]. split; [discriminate|]. split; [exact H|].
    rewrite (reads_atol _ _ H). apply w64_mod.
  - left. split; [left; exact E|reflexivity].
Qed.
Lemma to_int_spec x : - 2 ^ 31 <= to_int x < 2 ^ 31 /\ (to_int x - x) mod 2 ^ 32 = 0.
Proof.
  unfold to_int. change (2 ^ 31) with 2147483648. change (2 ^ 32) with 4294967296. cbv zeta.
  pose proof (Z.mod_pos_bound x 4294967296 ltac:(lia)) as B. pose proof (Z.div_mod x 4294967296 ltac:(lia)) as E.
  destruct (Z.ltb_spec (x mod 4294967296) 2147483648).
  - split; [lia|]. replace (x mod 4294967296 - x) with ((- (x / 4294967296)) * 4294967296) by lia. apply Z.mod_mul. lia.
  - split; [lia|]. replace (x mod 4294967296 - 4294967296 - x) with ((- (x / 4294967296) - 1) * 4294967296) by lia. apply Z.mod_mul. lia.
Qed.
Lemma get_int_any : forall e v d, 0 <= d < 2 ^ 31 -> int_any e v d (to_int (get_size e v (w64 d) 1)).
Proof.
  intros e v d Hd. change (2 ^ 31) with 2147483648 in Hd.
  assert (DW : to_int (w64 d) = d) by (rewrite w64_small by (rewrite W64_val; lia); apply to_int_id; lia).
  unfold get_size. destruct (e v) as [[|c s]|] eqn:E.
  - left. split; [right; exact E|exact DW].
  - right. destruct (reads_some (String c s)) as (z & H). exists (String c s), z. split; [exact E|]. split; [discriminate|]. split; [exact H|].
    rewrite (reads_atol _ _ H), Z.mul_1_r, w64_mod. destruct (to_int_spec (to_long z mod 2 ^ 64)) as (H1 & H2). split; [exact H1|].
    set (y := to_int (to_long z mod 2 ^ 64)) in *. clearbody y. change (2 ^ 32) with 4294967296 in *. change (2 ^ 64) with 18446744073709551616 in *.
    pose proof (Z.div_mod (to_long z) 18446744073709551616 ltac:(lia)) as E1. set (a := to_long z) in *. clearbody a.
    pose proof (Z.div_mod (y - a mod 18446744073709551616) 4294967296 ltac:(lia)) as E2. rewrite H2 in E2.
    set (b := a mod 18446744073709551616) in *. set (k := a / 18446744073709551616) in *. set (j := (y - b) / 4294967296) in *.
    replace (y - a) with ((j - 4294967296 * k) * 4294967296) by lia. apply Z.mod_mul. lia.
  - left. split; [left; exact E|exact DW].
Qed.

Lemma config_any : forall e c0, 0 <= realloc_factor c0 < 2 ^ 31 -> 0 <= mm_sources c0 < 2 ^ 31 ->
  (exists v s, In v bool_vars /\ e v = Some s /\ s <> "" /\ s <> "true" /\ s <> "false" /\ config_init e c0 = Abort) \/
  (exists c, config_init e c0 = Ok c /\
    bool_means e "MPCALLOC_PRINT_CONFIG" (print_config c0) (print_config c) /\ bool_means e "MPCALLOC_NUMA_STRICT" (strict c0) (strict c) /\
    bool_means e "MPCALLOC_NUMA_ROUND_ROBIN" (numa_round_robin c0) (numa_round_robin c) /\ bool_means e "MPCALLOC_NUMA_MIGRATION" (numa_migration c0) (numa_migration c) /\
    size_any e "MPCALLOC_KEEP_MAX" (2 ^ 20) (keep_max c0) (keep_max c) /\
    size_any e "MPCALLOC_KEEP_MEM" (2 ^ 20) (keep_mem c0) (keep_mem c) /\
    size_any e "MPCALLOC_REALLOC_THREASHOLD" (2 ^ 20) (realloc_threashold c0) (realloc_threashold c) /\
    int_any e "MPCALLOC_REALLOC_FACTOR" (realloc_factor c0) (realloc_factor c) /\
    int_any e "MPCALLOC_MM_SOURCES" (mm_sources c0) (mm_sources c)).
Proof.
  intros e c0 R0 M0. unfold config_init.
  assert (AB : forall v d, match get_bool e v d with Ok b => bool_means e v d b | Abort => exists s, e v = Some s /\ s <> "" /\ s <> "true" /\ s <> "false" | _ => False end).
  { intros v d. pose proof (get_bool_means e v d) as G. unfold get_bool in *. destruct (e v) as [[|c s]|]; try exact G.
    destruct (String.eqb (String c s) "true"); [exact G|]. destruct (String.eqb (String c s) "false"); exact G. }
  pose proof (AB "MPCALLOC_PRINT_CONFIG" (print_config c0)) as A1. destruct (get_bool e "MPCALLOC_PRINT_CONFIG" (print_config c0)) as [b1| | |]; try contradiction.
  2: { left. destruct A1 as (s & A1). exists "MPCALLOC_PRINT_CONFIG", s. split; [cbn; tauto|]. cbn [rbind]. tauto. }
  pose proof (AB "MPCALLOC_NUMA_STRICT" (strict c0)) as A2. destruct (get_bool e "MPCALLOC_NUMA_STRICT" (strict c0)) as [b2| | |]; try contradiction.
  2: { left. destruct A2 as (s & A2). exists "MPCALLOC_NUMA_STRICT", s. split; [cbn; tauto|]. cbn [rbind]. tauto. }
  pose proof (AB "MPCALLOC_NUMA_ROUND_ROBIN" (numa_round_robin c0)) as A3. destruct (get_bool e "MPCALLOC_NUMA_ROUND_ROBIN" (numa_round_robin c0)) as [b3| | |]; try contradiction.
  2: { left. destruct A3 as (s & A3). exists "MPCALLOC_NUMA_ROUND_ROBIN", s. split; [cbn; tauto|]. cbn [rbind]. tauto. }
  pose proof (AB "MPCALLOC_NUMA_MIGRATION" (numa_migration c0)) as A4. destruct (get_bool e "MPCALLOC_NUMA_MIGRATION" (numa_migration c0)) as [b4| | |]; try contradiction.
  2: { left. destruct A4 as (s & A4). exists "MPCALLOC_NUMA_MIGRATION", s. split; [cbn; tauto|]. cbn [rbind]. tauto. }
  right. cbn [rbind]. eexists. split; [reflexivity|]. cbn [print_config strict numa_round_robin numa_migration keep_max keep_mem realloc_threashold realloc_factor mm_sources].
  change MB with (2 ^ 20). split; [exact A1|]. split; [exact A2|]. split; [exact A3|]. split; [exact A4|].
  split; [apply get_size_any|]. split; [apply get_size_any|]. split; [apply get_size_any|]. split; apply get_int_any; assumption.
Qed.
