From Verif Require Import Word Res ConfigModel ConfigSpec.
From Coq Require Import ZArith String Ascii List Bool Lia Decimal DecimalString DecimalN.
Import ListNotations.
Local Open Scope string_scope.
Open Scope Z_scope.

Lemma digits_uint_acc : forall d acc rest, (forall c s, rest = String c s -> is_digit c = false) ->
  digits (Zpos acc) (NilEmpty.string_of_uint d ++ rest) = Zpos (Pos.of_uint_acc d acc).
Proof.
  induction d; intros acc rest R; cbn [NilEmpty.string_of_uint append Pos.of_uint_acc].
  1: { destruct rest as [|c s]; [reflexivity|]. cbn [digits]. rewrite (R c s eq_refl). reflexivity. }
  all: cbn [digits]; match goal with |- context [is_digit ?c] => change (is_digit c) with true end; cbv iota;
    rewrite <- (IHd _ rest R); match goal with |- context [code ?c] => let v := eval vm_compute in (code c) in change (code c) with v end; f_equal; lia.
Qed.
Lemma digits_uint : forall d rest, (forall c s, rest = String c s -> is_digit c = false) ->
  digits 0 (NilEmpty.string_of_uint d ++ rest) = Z.of_N (N.of_uint d).
Proof.
  unfold N.of_uint. induction d; intros rest R; cbn [NilEmpty.string_of_uint append Pos.of_uint].
  1: { destruct rest as [|c s]; [reflexivity|]. cbn [digits]. rewrite (R c s eq_refl). reflexivity. }
  1: { cbn [digits]. change (is_digit "0") with true. cbv iota. exact (IHd rest R). }
  all: cbn [digits]; match goal with |- context [is_digit ?c] => change (is_digit c) with true end; cbv iota;
    match goal with |- digits ?a _ = _ => let v := eval vm_compute in a in change a with v end;
    rewrite (digits_uint_acc d _ rest R); reflexivity.
Qed.
Lemma uint_head : forall d, d <> Nil -> exists c s, NilEmpty.string_of_uint d = String c s /\ is_space c = false /\ (code c =? 45) = false /\ (code c =? 43) = false.
Proof. destruct d; intros H; [contradiction|..]; eexists; eexists; cbn; repeat split; reflexivity. Qed.
Lemma to_uint_pos : forall n, N.to_uint n <> Nil.
Proof.
  intros n H. pose proof (DecimalN.Unsigned.of_to n) as E. rewrite H in E. cbn in E. subst n. discriminate H.
Qed.
Lemma dec_uint n : dec n = NilEmpty.string_of_uint (N.to_uint n).
Proof. unfold dec. pose proof (to_uint_pos n) as P. unfold NilZero.string_of_uint. destruct (N.to_uint n); [contradiction|reflexivity..]. Qed.

(** A decimal number followed by something that is not a digit is read as the number. *)
Lemma atol_dec : forall n rest, (forall c s, rest = String c s -> is_digit c = false) ->
  atol (dec n ++ rest) = clamp (Z.of_N n).
Proof.
  intros n rest R. rewrite dec_uint. pose proof (digits_uint (N.to_uint n) rest R) as D. rewrite DecimalN.Unsigned.of_to in D.
  destruct (uint_head (N.to_uint n) (to_uint_pos n)) as (c & s & E & S1 & S2 & S3). rewrite E in *. cbn [append] in *.
  unfold atol. cbn [skip_spaces]. rewrite S1, S2, S3, D. reflexivity.
Qed.
Lemma app_nil_r s : s ++ "" = s.
Proof. induction s as [|c s IH]; cbn; [reflexivity|]. rewrite IH. reflexivity. Qed.
Lemma dec_nonempty n : exists c s, dec n = String c s.
Proof. rewrite dec_uint. destruct (uint_head (N.to_uint n) (to_uint_pos n)) as (c & s & E & _). eauto. Qed.
Lemma clamp_id v : 0 <= v < S63 -> clamp v = v.
Proof. intros H. unfold clamp. rewrite S63_val in *. destruct (Z.ltb_spec v (Z.opp 9223372036854775808)); [lia|]. destruct (Z.ltb_spec (9223372036854775808 - 1) v); lia. Qed.

Lemma get_size_dec : forall e v d u n rest, e v = Some (dec n ++ rest) -> (forall c s, rest = String c s -> is_digit c = false) ->
  Z.of_N n < 2 ^ 63 -> 0 <= u -> Z.of_N n * u < 2 ^ 64 -> get_size e v d u = Z.of_N n * u.
Proof.
  intros e v d u n rest E R N U B. change (2 ^ 63) with 9223372036854775808 in N. change (2 ^ 64) with 18446744073709551616 in B.
  unfold get_size. rewrite E. pose proof (atol_dec n rest R) as A. destruct (dec_nonempty n) as (c & s & D). rewrite D in *. cbn [append] in *.
  rewrite A, clamp_id by (rewrite S63_val; lia). apply w64_small. rewrite W64_val. lia.
Qed.

Lemma get_size_means : forall e v d u, 0 < u ->
  (unset e v -> get_size e v d u = d) /\
  (forall n, e v = Some (dec n) -> Z.of_N n < 2 ^ 63 -> Z.of_N n * u < 2 ^ 64 -> get_size e v d u = Z.of_N n * u).
Proof.
  intros e v d u U. split.
  - intros [E|E]; unfold get_size; rewrite E; reflexivity.
  - intros n E N B. apply (get_size_dec e v d u n ""); [rewrite app_nil_r; exact E|discriminate|exact N|lia|exact B].
Qed.
Lemma get_bool_means : forall e v d, match get_bool e v d with
  | Ok b => bool_means e v d b
  | _ => exists s, e v = Some s /\ s <> "" /\ s <> "true" /\ s <> "false"
  end.
Proof.
  intros e v d. unfold get_bool. destruct (e v) as [[|c s]|] eqn:E.
  - left. split; [right; exact E|reflexivity].
  - destruct (String.eqb_spec (String c s) "true") as [Q|N1]; [rewrite Q in E; right; left; split; [exact E|reflexivity]|].
    destruct (String.eqb_spec (String c s) "false") as [Q|N2]; [rewrite Q in E; right; right; split; [exact E|reflexivity]|].
    exists (String c s). split; [reflexivity|]. split; [discriminate|]. split; assumption.
  - left. split; [left; exact E|reflexivity].
Qed.

Lemma size_ok : forall e v d u bound, 0 < u -> plain e v bound -> bound <= 2 ^ 63 -> bound * u <= 2 ^ 64 -> size_means e v u d (get_size e v d u).
Proof.
  intros e v d u bound U P B1 B2. destruct (get_size_means e v d u U) as [G1 G2]. destruct P as [P|(n & E & L)].
  - left. split; [exact P|exact (G1 P)].
  - right. exists n. split; [exact E|]. apply G2; [exact E|lia|].
    apply Z.lt_le_trans with (bound * u); [|exact B2]. apply Z.mul_lt_mono_pos_r; assumption.
Qed.
Lemma to_int_id x : 0 <= x < 2147483648 -> to_int x = x.
Proof. intros H. unfold to_int. rewrite Z.mod_small by lia. destruct (Z.ltb_spec x 2147483648); lia. Qed.
Lemma int_ok : forall e v d, 0 <= d < 2147483648 -> plain e v 2147483648 -> size_means e v 1 d (to_int (get_size e v (w64 d) 1)).
Proof.
  intros e v d D P. rewrite (w64_small d) by (rewrite W64_val; lia).
  destruct (size_ok e v d 1 2147483648 ltac:(lia) P) as [(U & E)|(n & E & X)]; [vm_compute; discriminate|vm_compute; discriminate|..].
  - left. split; [exact U|]. rewrite E. apply to_int_id. exact D.
  - right. exists n. split; [exact E|]. rewrite X. apply to_int_id. destruct P as [[P|P]|(m & E2 & L)].
    + rewrite P in E. discriminate.
    + rewrite P in E. injection E as E. destruct (dec_nonempty n) as (c & s & Q). rewrite Q in E. discriminate.
    + assert (Z.of_N m = Z.of_N n); [|lia]. rewrite E in E2. injection E2 as E2.
      pose proof (atol_dec n "" ltac:(discriminate)) as A1. pose proof (atol_dec m "" ltac:(discriminate)) as A2. rewrite <- E2, A1 in A2.
      rewrite (clamp_id (Z.of_N m)) in A2 by (rewrite S63_val; lia). revert A2. unfold clamp. rewrite S63_val.
      destruct (Z.ltb_spec (Z.of_N n) (Z.opp 9223372036854775808)) as [C|C]; [lia|]. destruct (Z.ltb_spec (9223372036854775808 - 1) (Z.of_N n)) as [C2|C2]; lia.
Qed.

(** The whole configuration. *)
Lemma config_ok : forall e c0, 0 <= realloc_factor c0 < 2 ^ 31 -> 0 <= mm_sources c0 < 2 ^ 31 ->
  plain e "MPCALLOC_KEEP_MAX" (2 ^ 44) -> plain e "MPCALLOC_KEEP_MEM" (2 ^ 44) -> plain e "MPCALLOC_REALLOC_THREASHOLD" (2 ^ 44) ->
  plain e "MPCALLOC_REALLOC_FACTOR" (2 ^ 31) -> plain e "MPCALLOC_MM_SOURCES" (2 ^ 31) ->
  (exists v s, In v bool_vars /\ e v = Some s /\ s <> "" /\ s <> "true" /\ s <> "false" /\ config_init e c0 = Abort) \/
  (exists c, config_init e c0 = Ok c /\
    bool_means e "MPCALLOC_PRINT_CONFIG" (print_config c0) (print_config c) /\ bool_means e "MPCALLOC_NUMA_STRICT" (strict c0) (strict c) /\
    bool_means e "MPCALLOC_NUMA_ROUND_ROBIN" (numa_round_robin c0) (numa_round_robin c) /\ bool_means e "MPCALLOC_NUMA_MIGRATION" (numa_migration c0) (numa_migration c) /\
    size_means e "MPCALLOC_KEEP_MAX" (2 ^ 20) (keep_max c0) (keep_max c) /\
    size_means e "MPCALLOC_KEEP_MEM" (2 ^ 20) (keep_mem c0) (keep_mem c) /\
    size_means e "MPCALLOC_REALLOC_THREASHOLD" (2 ^ 20) (realloc_threashold c0) (realloc_threashold c) /\
    size_means e "MPCALLOC_REALLOC_FACTOR" 1 (realloc_factor c0) (realloc_factor c) /\
    size_means e "MPCALLOC_MM_SOURCES" 1 (mm_sources c0) (mm_sources c)).
Proof.
  intros e c0 R0 M0 P1 P2 P3 P4 P5. change (2 ^ 31) with 2147483648 in *. unfold config_init.
  assert (AB : forall v d, match get_bool e v d with Ok b => bool_means e v d b | Abort => exists s, e v = Some s /\ s <> "" /\ s <> "true" /\ s <> "false" | _ => False end).
  { intros v d. pose proof (get_bool_means e v d) as G. unfold get_bool in *. destruct (e v) as [[|c s]|]; try exact G.
    destruct (String.eqb (String c s) "true"); [exact G|]. destruct (String.eqb (String c s) "false"); exact G. }
  pose proof (AB "MPCALLOC_PRINT_CONFIG" (print_config c0)) as A1. destruct (get_bool e "MPCALLOC_PRINT_CONFIG" (print_config c0)) as [b1| | |]; try contradiction.
  2: { left. destruct A1 as (s & A1). exists "MPCALLOC_PRINT_CONFIG", s. split; [cbn; tauto|]. cbn [rbind]. tauto. }
  pose proof (AB "MPCALLOC_NUMA_STRICT" (strict c0)) as A2. destruct (get_bool e "MPCALLOC_NUMA_STRICT" (strict c0)) as [b2| | |]; try contradiction.
  2: { left. destruct A2 as (s & A2). exists "MPCALLOC_NUMA_STRICT", s. split; [cbn; tauto|]. cbn [rbind]. tauto. }
  pose proof (AB "MPCALLOC_NUMA_ROUND_ROBIN" (numa_round_robin c0)) as A3. destruct (get_bool e "MPCALLOC_NUMA_ROUND_ROBIN" (numa_round_robin c0)) as [b3| | |]; try contradiction.
  2: { left. destruct A3 as (s & A3). exists "MPCALLOC_NUMA_ROUND_ROBIN", s. split; [cbn; tauto|]. cbn [rbind]. tauto. }
  pose proof (AB "MPCALLOC_NUMA_MIGRATION" (numa_migration c0)) as A4. destruct (get_bool e "MPCALLOC_NUMA_MIGRATION" (numa_migration c0)) as [b4| | |]; try contradiction.
  2: { left. destruct A4 as (s & A4). exists "MPCALLOC_NUMA_MIGRATION", s. split; [cbn; tauto|]. cbn [rbind]. tauto. }
  right. cbn [rbind]. eexists. split; [reflexivity|]. cbn [print_config strict numa_round_robin numa_migration keep_max keep_mem realloc_threashold realloc_factor mm_sources].
  change MB with (2 ^ 20). repeat split; try assumption.
  - apply (size_ok e _ _ _ (2 ^ 44)); [reflexivity|exact P1|vm_compute; discriminate|vm_compute; discriminate].
  - apply (size_ok e _ _ _ (2 ^ 44)); [reflexivity|exact P2|vm_compute; discriminate|vm_compute; discriminate].
  - apply (size_ok e _ _ _ (2 ^ 44)); [reflexivity|exact P3|vm_compute; discriminate|vm_compute; discriminate].
  - apply int_ok; [exact R0|exact P4].
  - apply int_ok; [exact M0|exact P5].
Qed.
Lemma defaults_ok : exists c, config_init (fun _ => None) defaults = Ok c /\ print_config c = false /\ strict c = false /\ numa_round_robin c = false /\ numa_migration c = false /\
  keep_max c = 8 * 2 ^ 20 /\ keep_mem c = 512 * 2 ^ 20 /\ realloc_threashold c = 50 * 2 ^ 20 /\ realloc_factor c = 2 /\ mm_sources c = 4.
Proof. eexists. split; [vm_compute; reflexivity|]. repeat split; vm_compute; reflexivity. Qed.
