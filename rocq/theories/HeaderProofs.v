(** Header fields: round trips and independence. *)
From Verif Require Import Word Res Mem HeaderModel HeaderSpec ChainModel.
From Coq Require Import ZArith Lia Bool List.
Open Scope Z_scope.

Lemma ld_app m k : forall a n, ld m a (k + n) = ld m a k + 256 ^ Z.of_nat k * ld m (a + Z.of_nat k) n.
Proof.
  induction k as [|k IH]; intros a n.
  - cbn [plus ld]. change (Z.of_nat 0) with 0. rewrite Z.add_0_r, Z.pow_0_r. lia.
  - change (S k + n)%nat with (S (k + n)). cbn [ld]. rewrite IH. rewrite Nat2Z.inj_succ, Z.pow_succ_r by lia.
    replace (a + 1 + Z.of_nat k) with (a + Z.succ (Z.of_nat k)) by lia. ring.
Qed.

Lemma land_ones v w : 0 <= w -> Z.land v (Z.ones w) = v mod 2 ^ w.
Proof. intros. apply Z.land_ones. assumption. Qed.
Lemma mask56 : MASK56 = Z.ones 56. Proof. reflexivity. Qed.
Lemma bf_get_eq b o w : 0 <= o -> 0 <= w -> bf_get b o w = (b / 2 ^ o) mod 2 ^ w.
Proof. intros. unfold bf_get. rewrite land_ones by assumption. rewrite Z.shiftr_div_pow2 by assumption. reflexivity. Qed.

(** Low bits, new field, high bits. *)
Lemma bf_set_eq b o w v : 0 <= o -> 0 <= w -> 0 <= b ->
  bf_set b o w v = b mod 2 ^ o + 2 ^ o * (v mod 2 ^ w) + 2 ^ (o + w) * (b / 2 ^ (o + w)).
Proof.
  intros Ho Hw Hb. unfold bf_set. rewrite (land_ones v w Hw).
  assert (P : 0 < 2 ^ o) by (apply Z.pow_pos_nonneg; lia). assert (Pw : 0 < 2 ^ w) by (apply Z.pow_pos_nonneg; lia).
  assert (Pow : 0 < 2 ^ (o + w)) by (apply Z.pow_pos_nonneg; lia).
  set (L := b mod 2 ^ o). set (F := v mod 2 ^ w). set (H := b / 2 ^ (o + w)).
  assert (HL : 0 <= L < 2 ^ o) by (apply Z.mod_pos_bound; lia). assert (HF : 0 <= F < 2 ^ w) by (apply Z.mod_pos_bound; lia).
  apply Z.bits_inj'. intros i Hi. rewrite Z.lor_spec, Z.land_spec, Z.lnot_spec by assumption.
  assert (BL : forall j, Z.testbit L j = if j <? o then Z.testbit b j else false).
  { intros j. unfold L. destruct (Z.ltb_spec j o); [apply Z.mod_pow2_bits_low; lia|apply Z.mod_pow2_bits_high; lia]. }
  assert (BF : forall j, 0 <= j -> Z.testbit F j = if j <? w then Z.testbit v j else false).
  { intros j Hj. unfold F. destruct (Z.ltb_spec j w); [apply Z.mod_pow2_bits_low; lia|apply Z.mod_pow2_bits_high; lia]. }
  assert (E : L + 2 ^ o * F + 2 ^ (o + w) * H = Z.lor L (Z.shiftl (Z.lor F (Z.shiftl H w)) o)).
  { rewrite !Z.shiftl_mul_pow2 by lia.
    assert (A1 : Z.lor F (H * 2 ^ w) = F + H * 2 ^ w).
    { rewrite Z.add_nocarry_lxor, <- Z.lxor_lor; [reflexivity| |]; apply Z.bits_inj'; intros j Hj; rewrite Z.land_spec, Z.bits_0;
      rewrite Z.mul_pow2_bits by lia; rewrite BF by lia; destruct (Z.ltb_spec j w); try reflexivity; rewrite (Z.testbit_neg_r H) by lia; apply andb_false_r. }
    rewrite A1.
    assert (A2 : Z.lor L ((F + H * 2 ^ w) * 2 ^ o) = L + (F + H * 2 ^ w) * 2 ^ o).
    { set (Q := F + H * 2 ^ w). rewrite Z.add_nocarry_lxor, <- Z.lxor_lor; [reflexivity| |]; apply Z.bits_inj'; intros j Hj; rewrite Z.land_spec, Z.bits_0;
      rewrite Z.mul_pow2_bits by lia; rewrite BL; destruct (Z.ltb_spec j o); try reflexivity; rewrite (Z.testbit_neg_r Q) by lia; apply andb_false_r. }
    rewrite A2. rewrite Z.pow_add_r by lia. ring. }
  rewrite E. rewrite Z.lor_spec. rewrite !Z.shiftl_spec by lia. rewrite BL.
  destruct (Z.ltb_spec i o) as [C|C].
  - rewrite (Z.testbit_neg_r (Z.ones w)) by lia. rewrite (Z.testbit_neg_r F) by lia. rewrite (Z.testbit_neg_r (Z.lor F _)) by lia. cbn. rewrite andb_true_r, !orb_false_r. reflexivity.
  - rewrite Z.lor_spec, Z.shiftl_spec by lia. cbn [orb]. rewrite BF by lia.
    destruct (Z.ltb_spec (i - o) w) as [D|D].
    + rewrite Z.ones_spec_low by lia. cbn. rewrite andb_false_r. rewrite (Z.testbit_neg_r H) by lia. rewrite orb_false_r. reflexivity.
    + rewrite Z.ones_spec_high by lia. cbn. rewrite andb_true_r, orb_false_r. unfold H. rewrite Z.div_pow2_bits by lia. f_equal. lia.
Qed.

Lemma win_word_eq v b : 0 <= b -> win_word v b = v mod 2 ^ 56 + 2 ^ 56 * b.
Proof.
  intros Hb. unfold win_word. rewrite mask56, land_ones by lia.
  transitivity (Z.lor (Z.land (Z.shiftl b 56) (Z.lnot (Z.shiftl (Z.ones 56) 0))) (Z.shiftl (Z.land v (Z.ones 56)) 0)).
  - rewrite !Z.shiftl_0_r, land_ones by lia. rewrite Z.lor_comm. f_equal. apply Z.bits_inj'. intros i Hi. rewrite Z.land_spec, Z.lnot_spec by lia.
    rewrite Z.shiftl_spec by lia. destruct (Z.ltb_spec i 56); [rewrite Z.testbit_neg_r by lia; reflexivity|rewrite Z.ones_spec_high by lia; rewrite andb_true_r; reflexivity].
  - change (bf_set (Z.shiftl b 56) 0 56 v = v mod 2 ^ 56 + 2 ^ 56 * b). rewrite bf_set_eq; [|lia|lia|rewrite Z.shiftl_mul_pow2 by lia; lia].
    rewrite Z.shiftl_mul_pow2 by lia. change (0 + 56) with 56. rewrite Z.div_mul by lia. rewrite Z.pow_0_r, Z.mod_1_r. lia.
Qed.

(** The four parts of a header. *)
Lemma hdr_parts m a : ld m a 16 = ld m a 7 + 2 ^ 56 * ld m (a + 7) 1 + 2 ^ 64 * ld m (a + 8) 7 + 2 ^ 120 * ld m (a + 15) 1.
Proof.
  change 16%nat with (7 + (1 + (7 + 1)))%nat. rewrite !ld_app.
  change (256 ^ Z.of_nat 7) with (2 ^ 56). change (256 ^ Z.of_nat 1) with (2 ^ 8). change (Z.of_nat 7) with 7. change (Z.of_nat 1) with 1.
  replace (a + 7 + 1) with (a + 8) by lia. replace (a + 8 + 7) with (a + 15) by lia. lia.
Qed.
Lemma word_parts m a : ld m a 8 = ld m a 7 + 2 ^ 56 * ld m (a + 7) 1.
Proof. change 8%nat with (7 + 1)%nat. rewrite ld_app. reflexivity. Qed.
Lemma r7 m a : 0 <= ld m a 7 < 2 ^ 56. Proof. exact (ld_range m 7 a). Qed.
Lemma r1 m a : 0 <= ld m a 1 < 2 ^ 8. Proof. exact (ld_range m 1 a). Qed.

(** Value of each field in terms of the parts. *)
Lemma f_val_eq m a f : f_val m a f =
  match f with
  | FSize => ld m a 7 | FAddr => ld m (a + 7) 1 | FPrev => ld m (a + 8) 7
  | FType => ld m (a + 15) 1 mod 4 | FState => (ld m (a + 15) 1 / 4) mod 2 | FMagic => ld m (a + 15) 1 / 8
  end.
Proof.
  unfold f_val. rewrite hdr_parts. assert (A := r7 m a). assert (B := r1 m (a + 7)). assert (C := r7 m (a + 8)). assert (D := r1 m (a + 15)).
  set (x := ld m a 7) in *. set (y := ld m (a + 7) 1) in *. set (z := ld m (a + 8) 7) in *. set (t := ld m (a + 15) 1) in *. clearbody x y z t.
  destruct f; cbn [f_off f_wid].
  - rewrite Z.pow_0_r, Z.div_1_r. lia.
  - lia.
  - lia.
  - replace ((x + 2 ^ 56 * y + 2 ^ 64 * z + 2 ^ 120 * t) / 2 ^ 120) with t by lia. reflexivity.
  - replace ((x + 2 ^ 56 * y + 2 ^ 64 * z + 2 ^ 120 * t) / 2 ^ 122) with (t / 4) by lia. reflexivity.
  - replace ((x + 2 ^ 56 * y + 2 ^ 64 * z + 2 ^ 120 * t) / 2 ^ 123) with (t / 8) by lia. lia.
Qed.

Lemma h_get_ok L m a f : h_get L m a f = f_val m a f.
Proof.
  rewrite f_val_eq. assert (D := r1 m (a + 15)). assert (A := r7 m a). assert (C := r7 m (a + 8)).
  destruct L, f; cbn [h_get ux_get win_get]; try reflexivity; try (rewrite bf_get_eq by lia); try reflexivity.
  - rewrite Z.pow_0_r, Z.div_1_r. reflexivity.
  - change (2 ^ 3) with 8. change (2 ^ 5) with 32. set (t := ld m (a + 15) 1) in *. clearbody t. lia.
  - rewrite mask56, land_ones, word_parts by lia. set (x := ld m a 7) in *. set (y := ld m (a + 7) 1). clearbody x y. lia.
  - rewrite mask56, land_ones, word_parts by lia. set (x := ld m (a + 8) 7) in *. set (y := ld m (a + 8 + 7) 1). clearbody x y. lia.
  - rewrite Z.pow_0_r, Z.div_1_r. reflexivity.
  - change (2 ^ 3) with 8. change (2 ^ 5) with 32. set (t := ld m (a + 15) 1) in *. clearbody t. lia.
Qed.

(** Storing 8 bytes: 7 and 1. *)
Lemma ld_sto8 m a v : ld (sto m a 8 v) a 7 = v mod 2 ^ 56 /\ ld (sto m a 8 v) (a + 7) 1 = (v / 2 ^ 56) mod 2 ^ 8.
Proof.
  assert (E := ld_sto_same m 8 a v). rewrite word_parts in E. change (256 ^ Z.of_nat 8) with (2 ^ 64) in E.
  assert (A := r7 (sto m a 8 v) a). assert (B := r1 (sto m a 8 v) (a + 7)).
  set (x := ld (sto m a 8 v) a 7) in *. set (y := ld (sto m a 8 v) (a + 7) 1) in *. clearbody x y. lia.
Qed.
Lemma ld_o m a n v b k : b + Z.of_nat k <= a \/ a + Z.of_nat n <= b -> ld (sto m a n v) b k = ld m b k.
Proof. intros. apply ld_sto_other. lia. Qed.

Definition field_eqb (f f' : field) : bool :=
  match f, f' with FSize, FSize | FAddr, FAddr | FPrev, FPrev | FType, FType | FState, FState | FMagic, FMagic => true | _, _ => false end.
Lemma field_eqb_spec f f' : field_eqb f f' = true <-> f = f'.
Proof. destruct f, f'; cbn; split; congruence || discriminate. Qed.

Lemma byte_fields t o w v : 0 <= t < 2 ^ 8 -> (o, w) = (0, 2) \/ (o, w) = (2, 1) \/ (o, w) = (3, 5) ->
  let b := bf_set t o w v in 0 <= b < 2 ^ 8 /\
  b mod 4 = (if o =? 0 then v mod 4 else t mod 4) /\ (b / 4) mod 2 = (if o =? 2 then v mod 2 else (t / 4) mod 2) /\
  b / 8 = (if o =? 3 then v mod 32 else t / 8).
Proof.
  intros Ht H b. unfold b. rewrite bf_set_eq by (destruct H as [H|[H|H]]; injection H as -> ->; lia).
  destruct H as [H|[H|H]]; injection H as -> ->; cbn [Z.eqb Pos.eqb]; change (0 + 2) with 2; change (2 + 1) with 3; change (3 + 5) with 8; change (2 ^ 0) with 1; change (2 ^ 1) with 2; change (2 ^ 2) with 4; change (2 ^ 3) with 8; change (2 ^ 5) with 32; change (2 ^ 8) with 256 in *; clear b; lia.
Qed.
Lemma st_byte m p t o w v : t = ld m p 1 -> (o, w) = (0, 2) \/ (o, w) = (2, 1) \/ (o, w) = (3, 5) ->
  ld (sto m p 1 (bf_set t o w v)) p 1 = bf_set t o w v.
Proof.
  intros -> H. destruct (byte_fields (ld m p 1) o w v (r1 m p) H) as (K & _). rewrite ld_sto_same. change (256 ^ Z.of_nat 1) with (2 ^ 8).
  apply Z.mod_small. exact K.
Qed.

Lemma h_set_ok L m a f v f' : f_val (h_set L m a f v) a f' = if field_eqb f f' then v mod 2 ^ f_wid f else f_val m a f'.
Proof.
  rewrite !f_val_eq.
  assert (D := r1 m (a + 15)). assert (B := r1 m (a + 7)).
  assert (X1 : (0, 2) = (0, 2) \/ (0, 2) = (2, 1) \/ (0, 2) = (3, 5)) by auto.
  assert (X2 : (2, 1) = (0, 2) \/ (2, 1) = (2, 1) \/ (2, 1) = (3, 5)) by auto.
  assert (X3 : (3, 5) = (0, 2) \/ (3, 5) = (2, 1) \/ (3, 5) = (3, 5)) by auto.
  assert (Y1 := byte_fields _ 0 2 v D X1). assert (Y2 := byte_fields _ 2 1 v D X2). assert (Y3 := byte_fields _ 3 5 v D X3). cbv zeta in Y1, Y2, Y3.
  cbn [Z.eqb Pos.eqb] in Y1, Y2, Y3.
  assert (S7 : forall p, ld (sto m p 7 v) p 7 = v mod 2 ^ 56) by (intros; rewrite ld_sto_same; reflexivity).
  assert (S1 : forall p, ld (sto m p 1 v) p 1 = v mod 2 ^ 8) by (intros; rewrite ld_sto_same; reflexivity).
  assert (W1 := ld_sto8 m a (win_word v (ld m (a + 7) 1))). assert (W2 := ld_sto8 m (a + 8) (win_word v (ld m (a + 15) 1))).
  rewrite win_word_eq in W1, W2 by lia. replace (a + 8 + 7) with (a + 15) in W2 by lia.
  assert (Z1 : forall b, 0 <= b < 2 ^ 8 -> (v mod 2 ^ 56 + 2 ^ 56 * b) mod 2 ^ 56 = v mod 2 ^ 56 /\ ((v mod 2 ^ 56 + 2 ^ 56 * b) / 2 ^ 56) mod 2 ^ 8 = b)
    by (clear; intros; lia).
  destruct (Z1 _ B) as (Z2 & Z3). destruct (Z1 _ D) as (Z4 & Z5). rewrite Z2, Z3 in W1. rewrite Z4, Z5 in W2. clear Z1 Z2 Z3 Z4 Z5. destruct W1 as (W1 & W1'), W2 as (W2 & W2').
  destruct L, f; cbn [h_set ux_set win_set]; rewrite ?win_word_eq by lia;
  destruct f'; cbn [field_eqb f_wid];
  rewrite ?S7, ?S1, ?W1, ?W1', ?W2, ?W2', ?(st_byte m _ _ _ _ v eq_refl X1), ?(st_byte m _ _ _ _ v eq_refl X2), ?(st_byte m _ _ _ _ v eq_refl X3); try reflexivity;
  try (rewrite ld_o by lia; reflexivity); clear - Y1 Y2 Y3; first [apply Y1|apply Y2|apply Y3].
Qed.

Lemma h_set_frame L m a f v x : ~ a <= x < a + 16 -> h_set L m a f v x = m x.
Proof. intros H. destruct L, f; cbn [h_set ux_set win_set]; apply sto_other; lia. Qed.

(** Bytes are determined by the number read. *)
Lemma ld_inj m m' n : forall a, ld m a n = ld m' a n -> forall x, a <= x < a + Z.of_nat n -> m x mod 256 = m' x mod 256.
Proof.
  induction n as [|n IH]; intros a E x Hx; [lia|]. cbn [ld] in E. rewrite Nat2Z.inj_succ in Hx.
  destruct (Z.eq_dec x a) as [->|N].
  - set (u := ld m (a + 1) n) in *. set (u' := ld m' (a + 1) n) in *. clearbody u u'. lia.
  - apply (IH (a + 1)); [|lia]. set (u := ld m (a + 1) n) in *. set (u' := ld m' (a + 1) n) in *. clearbody u u'. lia.
Qed.
Lemma h_layouts m a f v x : h_set Unix m a f v x mod 256 = h_set Windows m a f v x mod 256.
Proof.
  destruct (Z_le_gt_dec a x) as [H1|H1]; [destruct (Z_lt_ge_dec x (a + 16)) as [H2|H2]|];
    [|rewrite !h_set_frame by lia; reflexivity|rewrite !h_set_frame by lia; reflexivity].
  apply (ld_inj _ _ 16 a); [|change (Z.of_nat 16) with 16; lia].
  assert (E : forall f', f_val (h_set Unix m a f v) a f' = f_val (h_set Windows m a f v) a f') by (intros; rewrite !h_set_ok; reflexivity).
  rewrite !hdr_parts. assert (E1 := E FSize). assert (E2 := E FAddr). assert (E3 := E FPrev). assert (E4 := E FType). assert (E5 := E FState). assert (E6 := E FMagic).
  rewrite !f_val_eq in *. rewrite E1, E2, E3. f_equal. f_equal.
  set (t := ld (h_set Unix m a f v) (a + 15) 1) in *. set (t' := ld (h_set Windows m a f v) (a + 15) 1) in *. clearbody t t'. clear - E4 E5 E6. lia.
Qed.

(** ** Padded headers *)
Lemma p_val_eq m a f : p_val m a f =
  match f with PPad => ld m a 7 | PType => ld m (a + 7) 1 mod 4 | PState => (ld m (a + 7) 1 / 4) mod 2 | PMagic => ld m (a + 7) 1 / 8 end.
Proof.
  unfold p_val. rewrite word_parts. assert (A := r7 m a). assert (B := r1 m (a + 7)).
  set (x := ld m a 7) in *. set (t := ld m (a + 7) 1) in *. clearbody x t. destruct f; cbn [p_off p_wid].
  - rewrite Z.pow_0_r, Z.div_1_r. lia.
  - replace ((x + 2 ^ 56 * t) / 2 ^ 56) with t by lia. reflexivity.
  - replace ((x + 2 ^ 56 * t) / 2 ^ 58) with (t / 4) by lia. reflexivity.
  - replace ((x + 2 ^ 56 * t) / 2 ^ 59) with (t / 8) by lia. lia.
Qed.
Lemma p_get_ok L m a f : p_get L m a f = p_val m a f.
Proof.
  rewrite p_val_eq. assert (A := r7 m a). assert (B := r1 m (a + 7)).
  destruct f; cbn [p_get]; try (rewrite bf_get_eq by lia); try reflexivity.
  - destruct L; [reflexivity|]. rewrite mask56, land_ones, word_parts by lia. set (x := ld m a 7) in *. set (y := ld m (a + 7) 1) in *. clearbody x y. lia.
  - rewrite Z.pow_0_r, Z.div_1_r. reflexivity.
  - change (2 ^ 3) with 8. change (2 ^ 5) with 32. set (t := ld m (a + 7) 1) in *. clearbody t. lia.
Qed.
Definition pfield_eqb (f f' : pfield) : bool := match f, f' with PPad, PPad | PType, PType | PState, PState | PMagic, PMagic => true | _, _ => false end.
Lemma p_set_ok L m a f v f' : p_val (p_set L m a f v) a f' = if pfield_eqb f f' then v mod 2 ^ p_wid f else p_val m a f'.
Proof.
  rewrite !p_val_eq. assert (B := r1 m (a + 7)).
  assert (X1 : (0, 2) = (0, 2) \/ (0, 2) = (2, 1) \/ (0, 2) = (3, 5)) by auto.
  assert (X2 : (2, 1) = (0, 2) \/ (2, 1) = (2, 1) \/ (2, 1) = (3, 5)) by auto.
  assert (X3 : (3, 5) = (0, 2) \/ (3, 5) = (2, 1) \/ (3, 5) = (3, 5)) by auto.
  assert (Y1 := byte_fields _ 0 2 v B X1). assert (Y2 := byte_fields _ 2 1 v B X2). assert (Y3 := byte_fields _ 3 5 v B X3). cbv zeta in Y1, Y2, Y3.
  cbn [Z.eqb Pos.eqb] in Y1, Y2, Y3.
  assert (W1 := ld_sto8 m a (win_word v (ld m (a + 7) 1))). rewrite win_word_eq in W1 by lia.
  assert (Z1 : forall b, 0 <= b < 2 ^ 8 -> (v mod 2 ^ 56 + 2 ^ 56 * b) mod 2 ^ 56 = v mod 2 ^ 56 /\ ((v mod 2 ^ 56 + 2 ^ 56 * b) / 2 ^ 56) mod 2 ^ 8 = b)
    by (clear; intros; lia).
  destruct (Z1 _ B) as (Z2 & Z3). rewrite Z2, Z3 in W1. clear Z1 Z2 Z3. destruct W1 as (W1 & W1').
  assert (S7 : forall p, ld (sto m p 7 v) p 7 = v mod 2 ^ 56) by (intros; rewrite ld_sto_same; reflexivity).
  destruct f; cbn [p_set]; [destruct L| | |]; rewrite ?win_word_eq by lia; destruct f'; cbn [pfield_eqb p_wid];
  rewrite ?S7, ?W1, ?W1', ?(st_byte m _ _ _ _ v eq_refl X1), ?(st_byte m _ _ _ _ v eq_refl X2), ?(st_byte m _ _ _ _ v eq_refl X3); try reflexivity;
  try (rewrite ld_o by lia; reflexivity); clear - Y1 Y2 Y3; first [apply Y1|apply Y2|apply Y3].
Qed.
Lemma p_set_frame L m a f v x : ~ a <= x < a + 8 -> p_set L m a f v x = m x.
Proof. intros H. destruct f; cbn [p_set]; [destruct L| | |]; apply sto_other; lia. Qed.

(** ** The chain model uses the Unix accessors *)
Lemma info_set b t : 0 <= b < 2 ^ 8 ->
  (0 <= t < 4 -> mk_info t (i_state b) (i_magic b) = bf_set b 0 2 t) /\
  (0 <= t < 2 -> mk_info (i_type b) t (i_magic b) = bf_set b 2 1 t) /\
  (0 <= t < 32 -> mk_info (i_type b) (i_state b) t = bf_set b 3 5 t).
Proof.
  intros H. unfold mk_info, i_state, i_magic, i_type. rewrite !bf_set_eq by lia.
  change (0 + 2) with 2; change (2 + 1) with 3; change (3 + 5) with 8; change (2 ^ 0) with 1; change (2 ^ 1) with 2; change (2 ^ 2) with 4; change (2 ^ 3) with 8; change (2 ^ 5) with 32; change (2 ^ 8) with 256 in *.
  split; [|split]; intros; lia.
Qed.

Lemma chain_reads s a v s' :
  (get_size a s = Ok (v, s') -> v = h_get Unix (smem s) a FSize /\ s' = s) /\
  (get_prevsize a s = Ok (v, s') -> v = h_get Unix (smem s) a FPrev /\ s' = s) /\
  (get_type (a + 15) s = Ok (v, s') -> v = h_get Unix (smem s) a FType /\ s' = s) /\
  (get_state (a + 15) s = Ok (v, s') -> v = h_get Unix (smem s) a FState /\ s' = s) /\
  (get_magic (a + 15) s = Ok (v, s') -> v = h_get Unix (smem s) a FMagic /\ s' = s) /\
  (get_padding a s = Ok (v, s') -> v = p_get Unix (smem s) a PPad /\ s' = s).
Proof.
  assert (L : forall p n w, loadn p n s = Ok (w, s') -> w = ld (smem s) p n /\ s' = s).
  { intros p n w. unfold loadn. destruct (accb _ _ _); [|discriminate]. intros E. injection E as <- <-. auto. }
  assert (B : forall p f, (b <- loadn p 1 ;; ret (f b)) s = Ok (v, s') -> v = f (ld (smem s) p 1) /\ s' = s).
  { intros p f. unfold bind, loadn. destruct (accb _ _ _); [|discriminate]. cbn. intros E. injection E as <- <-. auto. }
  rewrite !h_get_ok, p_get_ok, !f_val_eq, p_val_eq.
  refine (conj _ (conj _ (conj _ (conj _ (conj _ _))))); intros E; [exact (L _ _ _ E)|exact (L _ _ _ E)|exact (B _ _ E)|exact (B _ _ E)|exact (B _ _ E)|exact (L _ _ _ E)].
Qed.

Lemma chain_writes s a v s' :
  (set_size a v s = Ok (tt, s') -> s' = set_mem s (h_set Unix (smem s) a FSize v)) /\
  (set_addr a v s = Ok (tt, s') -> s' = set_mem s (h_set Unix (smem s) a FAddr v)) /\
  (set_prevsize a v s = Ok (tt, s') -> s' = set_mem s (h_set Unix (smem s) a FPrev v)) /\
  (0 <= v < 4 -> set_type (a + 15) v s = Ok (tt, s') -> s' = set_mem s (h_set Unix (smem s) a FType v)) /\
  (0 <= v < 2 -> set_state (a + 15) v s = Ok (tt, s') -> s' = set_mem s (h_set Unix (smem s) a FState v)) /\
  (0 <= v < 32 -> set_magic (a + 15) v s = Ok (tt, s') -> s' = set_mem s (h_set Unix (smem s) a FMagic v)) /\
  (set_padding a v s = Ok (tt, s') -> s' = set_mem s (p_set Unix (smem s) a PPad v)).
Proof.
  assert (I := info_set (ld (smem s) (a + 15) 1) v (r1 _ _)). destruct I as (I1 & I2 & I3).
  refine (conj _ (conj _ (conj _ (conj _ (conj _ (conj _ _)))))).
  1-3,7: unfold set_size, set_addr, set_prevsize, set_padding, storen; destruct (accb _ _ _); [|discriminate]; intros E; injection E as <-; reflexivity.
  all: intros Hv; unfold set_type, set_state, set_magic, bind, loadn, storen; destruct (accb _ _ _) eqn:EA; [|discriminate]; cbn [rbind];
    rewrite ?EA; intros E; injection E as <-; cbn [h_set ux_set]; rewrite <- ?I1, <- ?I2, <- ?I3 by assumption; reflexivity.
Qed.
