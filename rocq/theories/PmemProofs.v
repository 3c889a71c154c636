From Verif Require Import Word Res PmemModel PmemSpec.
From Coq Require Import ZArith List Bool Lia.
Import ListNotations.
Open Scope Z_scope.

(** No division by a constant here: plain [lia]. *)
Ltac Zify.zify_post_hook ::= idtac.

Record PInv (b mx : Z) (d : pdesc) (L : list (Z * Z)) : Prop := {
  i_max : pmax d = mx; i_ptr : pptr d = b + pcur d; i_cur : 0 <= pcur d <= mx; i_sum : psum L = pcur d;
  i_in : forall x, In x L -> b <= fst x /\ 0 <= snd x /\ fst x + snd x <= pptr d;
  i_ap : ForallOrdPairs papart L }.

Lemma palloc_inv : forall b mx d L n r d', ppool b mx -> 0 <= n < 2 ^ 64 - mx -> PInv b mx d L -> pmalloc n d = (r, d') ->
  PInv b mx d' (if r =? 0 then L else (r, n) :: L) /\ (r = 0 <-> mx < psum L + n) /\ (r <> 0 -> r = b + psum L) /\ (r = 0 -> d' = d).
Proof.
  intros b mx d L n r d' (P1 & P2 & P3) N I E. change (2 ^ 64) with 18446744073709551616 in *. destruct I. unfold pmalloc in E.
  rewrite add64_small in E by (rewrite W64_val; lia). rewrite i_max0 in E.
  destruct (Z.leb_spec (n + pcur d) mx) as [Le|Le].
  - injection E as <- <-. rewrite !add64_small by (rewrite W64_val; lia).
    destruct (Z.eqb_spec (pptr d) 0) as [Z0|_]; [lia|]. split; [|split; [split; lia|split; [intros _; lia|lia]]].
    constructor; cbn; try lia.
    + unfold psum in *. lia.
    + intros x [<-|Hx]; cbn; [lia|]. specialize (i_in0 x Hx). lia.
    + constructor; [|exact i_ap0]. apply Forall_forall. intros y Hy. specialize (i_in0 y Hy). unfold papart. cbn. lia.
  - injection E as <- <-. cbn. split; [constructor; assumption|]. split; [split; lia|]. split; [congruence|reflexivity].
Qed.

Lemma preach_inv : forall b mx d m L, ppool b mx -> preach (2 ^ 64 - mx) b mx d m L -> PInv b mx d L.
Proof.
  intros b mx d m L P H. induction H as [m|d m L o r d' m' H IH V E].
  - destruct P as (P1 & P2 & P3). constructor; cbn; try lia; try contradiction. constructor.
  - destruct o as [n|p n|a v]; cbn [prun pvalid pout] in *.
    + destruct (pmalloc n d) as [r0 d0] eqn:F. injection E as -> -> _. exact (proj1 (palloc_inv b mx d L n r d' P V IH F)).
    + injection E as _ <- _. exact IH.
    + injection E as _ <- _. exact IH.
Qed.

Lemma blocks_disjoint : forall b mx d m L, ppool b mx -> preach (2 ^ 64 - mx) b mx d m L ->
  ForallOrdPairs papart L /\ forall x, In x L -> pin b mx x.
Proof.
  intros b mx d m L P H. destruct (preach_inv _ _ _ _ _ P H). split; [assumption|]. intros x Hx. specialize (i_in0 x Hx). unfold pin. lia.
Qed.
Lemma alloc_fits : forall b mx d m L n r d' m', ppool b mx -> preach (2 ^ 64 - mx) b mx d m L -> 0 <= n < 2 ^ 64 - mx ->
  prun (PAlloc n) d m = (r, d', m') -> (r = 0 <-> mx < psum L + n) /\ m' = m.
Proof.
  intros b mx d m L n r d' m' P H N E. pose proof (preach_inv _ _ _ _ _ P H) as I. cbn [prun] in E. destruct (pmalloc n d) as [r0 d0] eqn:F.
  injection E as -> -> ->. split; [|reflexivity]. exact (proj1 (proj2 (palloc_inv b mx d L n r d' P N I F))).
Qed.
Lemma release_exact : forall b mx d m L p n r d' m' y a, ppool b mx -> preach (2 ^ 64 - mx) b mx d m L -> In (p, n) L ->
  prun (PRelease p n) d m = (r, d', m') -> (p <= a < p + n -> m' a = 0) /\
  (In y L -> y <> (p, n) -> fst y <= a < fst y + snd y -> m' a = m a).
Proof.
  intros b mx d m L p n r d' m' y a P H I E. cbn [prun] in E. injection E as _ _ <-. unfold pfree. split.
  - intros A. destruct ((p <=? a) && (a <? p + n)) eqn:B; [reflexivity|lia].
  - intros Hy D A. destruct ((p <=? a) && (a <? p + n)) eqn:B; [|reflexivity]. exfalso.
    destruct (preach_inv _ _ _ _ _ P H). 
    assert (X : papart y (p, n) \/ papart (p, n) y).
    { destruct (ForallOrdPairs_In i_ap0 y (p, n) Hy I) as [X|[X|X]]; [contradiction|left; exact X|right; exact X]. }
    unfold papart in X. cbn in X. lia.
Qed.

(** A wrapping request is granted and rewinds the pool. *)
Lemma wrap_rewinds : forall b mx n m, ppool b mx -> 0 < n <= mx -> exists d1 d2,
  prun (PAlloc n) (mkPd 0 mx b b) m = (b, d1, m) /\
  prun (PAlloc (2 ^ 64 - n)) d1 m = (b + n, d2, m) /\
  prun (PAlloc n) d2 m = (b, d1, m).
Proof.
  intros b mx n m (P1 & P2 & P3) N. change (2 ^ 64) with 18446744073709551616 in *. cbn [prun]. unfold pmalloc. cbn [pcur pmax pptr pstart].
  exists (mkPd n mx (b + n) b), (mkPd 0 mx b b).
  rewrite (add64_small n 0) by (rewrite W64_val; lia). destruct (Z.leb_spec (n + 0) mx) as [_|C]; [|lia]. cbn [pcur pmax pptr pstart].
  assert (A0 : add64 0 n = n) by (rewrite add64_small by (rewrite W64_val; lia); reflexivity).
  assert (A1 : add64 b n = b + n) by (rewrite add64_small by (rewrite W64_val; lia); reflexivity). rewrite ?A0, ?A1.
  split; [reflexivity|].
  assert (W : add64 (18446744073709551616 - n) n = 0) by (unfold add64, w64; rewrite W64_val; replace (18446744073709551616 - n + n) with 18446744073709551616 by lia; reflexivity).
  assert (W2 : add64 n (18446744073709551616 - n) = 0) by (unfold add64, w64; rewrite W64_val; replace (n + (18446744073709551616 - n)) with 18446744073709551616 by lia; reflexivity).
  assert (W3 : add64 (b + n) (18446744073709551616 - n) = b).
  { unfold add64, w64. rewrite W64_val. replace (b + n + (18446744073709551616 - n)) with (b + 1 * 18446744073709551616) by lia.
    rewrite Z.mod_add by lia. apply Z.mod_small. lia. }
  rewrite W, W2, W3. destruct (Z.leb_spec 0 mx) as [_|C]; [|lia]. split; [reflexivity|].
  cbn [pcur pmax pptr pstart]. rewrite (add64_small n 0) by (rewrite W64_val; lia).
  destruct (Z.leb_spec (n + 0) mx) as [_|C]; [|lia]. rewrite ?A0, ?A1. reflexivity.
Qed.

Lemma f32_small x : 0 <= x < 2 ^ 24 -> f32 x = x.
Proof.
  intros H. unfold f32. destruct (Z.leb_spec (Z.log2 x - 23) 0) as [_|C]; [reflexivity|].
  assert (x <= 0 \/ 0 < x) as [Z0|P] by lia; [assert (x = 0) as -> by lia; cbn in C; lia|].
  assert (Z.log2 x < 24) by (apply Z.log2_lt_pow2; [exact P|exact (proj2 H)]). lia.
Qed.
Lemma f32_pow2_plus1 e : 24 <= e <= 62 -> f32 (2 ^ e + 1) = 2 ^ e.
Proof.
  intros H. assert (L : Z.log2 (2 ^ e + 1) = e).
  { apply Z.log2_unique; [lia|]. rewrite Z.pow_succ_r by lia. assert (2 ^ 1 <= 2 ^ e) by (apply Z.pow_le_mono_r; lia). lia. }
  unfold f32. rewrite L. destruct (Z.leb_spec (e - 23) 0) as [C|_]; [lia|].
  assert (S : 2 ^ e = 2 ^ 23 * 2 ^ (e - 23)) by (rewrite <- Z.pow_add_r by lia; f_equal; lia).
  assert (B : 2 <= 2 ^ (e - 23)) by (change 2 with (2 ^ 1) at 1; apply Z.pow_le_mono_r; lia).
  assert (Q : (2 ^ e + 1) / 2 ^ (e - 23) = 2 ^ 23) by (rewrite S, Z.div_add_l by lia; rewrite Z.div_small by lia; lia).
  assert (R : (2 ^ e + 1) mod 2 ^ (e - 23) = 1) by (rewrite S, Z.add_comm, Z.mod_add by lia; apply Z.mod_small; lia).
  rewrite Q, R. assert (HB : 1 <= 2 ^ (e - 23 - 1)) by (change 1 with (2 ^ 0) at 1; apply Z.pow_le_mono_r; lia).
  change (Z.odd (2 ^ 23)) with false. rewrite andb_false_r, orb_false_r.
  destruct (Z.ltb_spec (2 ^ (e - 23 - 1)) 1) as [C|_]; [lia|]. rewrite S. reflexivity.
Qed.
Lemma ceil_mult P x : 0 < P -> 0 <= x -> page_ceiling P x ((x + P - 1) / P * P).
Proof.
  intros HP Hx. unfold page_ceiling. split; [apply Z.mod_mul; lia|].
  pose proof (Z.div_mod (x + P - 1) P ltac:(lia)) as D. pose proof (Z.mod_pos_bound (x + P - 1) P HP) as M.
  set (q := (x + P - 1) / P) in *. set (r := (x + P - 1) mod P) in *. clearbody q r. nia.
Qed.
Lemma create_small : forall k x base, 0 <= k <= 30 -> 0 <= x < 2 ^ 24 -> base <> 0 ->
  exists v, create k x base = Ok (Some (mkPd 0 v base base), v) /\ page_ceiling (2 ^ k) x v.
Proof.
  intros k x base K X B. unfold create, roundup. rewrite f32_small by exact X.
  assert (P : 0 < 2 ^ k) by (apply Z.pow_pos_nonneg; lia).
  assert (U : 2 ^ k <= 2 ^ 30) by (apply Z.pow_le_mono_r; lia).
  pose proof (ceil_mult (2 ^ k) x P ltac:(lia)) as C. set (v := (x + 2 ^ k - 1) / 2 ^ k * 2 ^ k) in *.
  change (2 ^ 30) with 1073741824 in U. change (2 ^ 24) with 16777216 in X. unfold page_ceiling in C.
  destruct (Z.ltb_spec v W64) as [_|D]; [|rewrite W64_val in D; lia]. cbn [rbind]. destruct (Z.eqb_spec base 0) as [Z0|_]; [contradiction|].
  exists v. split; [reflexivity|exact C].
Qed.
Lemma create_too_small : forall k e base, 0 <= k <= e -> 24 <= e <= 62 -> base <> 0 ->
  create k (2 ^ e + 1) base = Ok (Some (mkPd 0 (2 ^ e) base base), 2 ^ e).
Proof.
  intros k e base K E B. unfold create, roundup. rewrite f32_pow2_plus1 by exact E.
  assert (P : 0 < 2 ^ k) by (apply Z.pow_pos_nonneg; lia).
  assert (S : 2 ^ e = 2 ^ (e - k) * 2 ^ k) by (rewrite <- Z.pow_add_r by lia; f_equal; lia).
  assert (V : (2 ^ e + 2 ^ k - 1) / 2 ^ k * 2 ^ k = 2 ^ e).
  { rewrite S at 1. replace (2 ^ (e - k) * 2 ^ k + 2 ^ k - 1) with (2 ^ (e - k) * 2 ^ k + (2 ^ k - 1)) by lia.
    rewrite Z.div_add_l by lia. rewrite Z.div_small by lia. rewrite S. lia. }
  rewrite V. assert (U : 2 ^ e <= 2 ^ 62) by (apply Z.pow_le_mono_r; lia). change (2 ^ 62) with 4611686018427387904 in U.
  destruct (Z.ltb_spec (2 ^ e) W64) as [_|D]; [|rewrite W64_val in D; lia]. cbn [rbind]. destruct (Z.eqb_spec base 0) as [Z0|_]; [contradiction|reflexivity].
Qed.

(** The conversion to float is off by at most one part in 2^24, and exact for multiples of a page below 2^24 pages. *)
Lemma f32_near x : 0 <= x -> x - x / 2 ^ 24 <= f32 x <= x + x / 2 ^ 24.
Proof.
  intros H. unfold f32. assert (N : 0 <= x / 2 ^ 24) by (apply Z.div_pos; lia). destruct (Z.leb_spec (Z.log2 x - 23) 0) as [_|C]; [lia|].
  set (e := Z.log2 x - 23) in *. assert (P : 0 < x) by (destruct (Z.eq_dec x 0) as [->|]; [cbn in e; subst e; lia|lia]).
  pose proof (Z.log2_spec x P) as (L & _). replace (Z.log2 x) with ((e - 1) + 24) in L by (subst e; lia). rewrite Z.pow_add_r in L by lia.
  assert (B : 2 ^ (e - 1) <= x / 2 ^ 24) by (apply Z.div_le_lower_bound; lia).
  assert (E2 : 2 ^ e = 2 * 2 ^ (e - 1)) by (rewrite <- Z.pow_succ_r by lia; f_equal; lia). assert (HP : 0 < 2 ^ (e - 1)) by (apply Z.pow_pos_nonneg; lia).
  pose proof (Z.div_mod x (2 ^ e) ltac:(lia)) as D. pose proof (Z.mod_pos_bound x (2 ^ e) ltac:(lia)) as M.
  set (q := x / 2 ^ e) in *. set (r := x mod 2 ^ e) in *. set (h := 2 ^ (e - 1)) in *. set (g := x / 2 ^ 24) in *. rewrite E2 in *. clearbody q r h g. clear - D M B HP.
  destruct ((h <? r) || ((r =? h) && Z.odd q)) eqn:T.
  - assert (h <= r) by (apply orb_true_iff in T as [T|T]; [lia|apply andb_true_iff in T as (T & _); lia]). nia.
  - assert (r <= h) by (apply orb_false_iff in T as (T & _); lia). nia.
Qed.
Lemma f32_exact k x : 0 <= k -> 0 <= x < 2 ^ (k + 24) -> x mod 2 ^ k = 0 -> f32 x = x.
Proof.
  intros K H D. unfold f32. destruct (Z.leb_spec (Z.log2 x - 23) 0) as [_|C]; [reflexivity|]. set (e := Z.log2 x - 23) in *.
  assert (P : 0 < x) by (destruct (Z.eq_dec x 0) as [->|]; [cbn in e; subst e; lia|lia]).
  assert (LE : Z.log2 x < k + 24) by (apply Z.log2_lt_pow2; [exact P|exact (proj2 H)]). assert (EK : e <= k) by (subst e; lia).
  assert (PE : 0 < 2 ^ e) by (apply Z.pow_pos_nonneg; lia). assert (PK : 0 < 2 ^ k) by (apply Z.pow_pos_nonneg; lia).
  assert (R : x mod 2 ^ e = 0).
  { apply Z.mod_divide in D; [|lia]. destruct D as (q & ->). replace k with ((k - e) + e) by lia. rewrite Z.pow_add_r by lia. rewrite Z.mul_assoc. apply Z.mod_mul. lia. }
  rewrite R. assert (HP : 0 < 2 ^ (e - 1)) by (apply Z.pow_pos_nonneg; lia). destruct (Z.ltb_spec (2 ^ (e - 1)) 0) as [C'|_]; [lia|].
  destruct (Z.eqb_spec 0 (2 ^ (e - 1))) as [C'|_]; [lia|]. cbn [orb andb]. pose proof (Z.div_mod x (2 ^ e) ltac:(lia)) as DM. lia.
Qed.
Lemma create_near : forall k x base, 0 <= k <= 30 -> 0 <= x < 2 ^ 63 -> base <> 0 ->
  exists v, create k x base = Ok (Some (mkPd 0 v base base), v) /\ v mod 2 ^ k = 0 /\ x - x / 2 ^ 24 <= v < x + x / 2 ^ 24 + 2 ^ k.
Proof.
  intros k x base K X B. unfold create, roundup. pose proof (f32_near x ltac:(lia)) as F. set (f := f32 x) in *. clearbody f.
  assert (G : 0 <= x / 2 ^ 24 <= x) by (split; [apply Z.div_pos; lia|apply Z.div_le_upper_bound; lia]). set (g := x / 2 ^ 24) in *.
  assert (G63 : g <= 2 ^ 39). { subst g. change (2 ^ 39) with (2 ^ 63 / 2 ^ 24). apply Z.div_le_mono; lia. } clearbody g.
  assert (P : 0 < 2 ^ k) by (apply Z.pow_pos_nonneg; lia). assert (U : 2 ^ k <= 2 ^ 30) by (apply Z.pow_le_mono_r; lia).
  pose proof (ceil_mult (2 ^ k) f P ltac:(lia)) as (C1 & C2). set (v := (f + 2 ^ k - 1) / 2 ^ k * 2 ^ k) in *. clearbody v.
  assert (V : v < W64). { rewrite W64_val. change (2 ^ 63) with 9223372036854775808 in X. change (2 ^ 39) with 549755813888 in G63. change (2 ^ 30) with 1073741824 in U. lia. }
  destruct (Z.ltb_spec v W64) as [_|D]; [|lia]. cbn [rbind]. destruct (Z.eqb_spec base 0) as [Z0|_]; [contradiction|].
  exists v. split; [reflexivity|]. split; [exact C1|lia].
Qed.
Lemma create_exact : forall k x base, 0 <= k <= 30 -> 0 <= x < 2 ^ (k + 24) -> x mod 2 ^ k = 0 -> base <> 0 -> create k x base = Ok (Some (mkPd 0 x base base), x).
Proof.
  intros k x base K X D B. unfold create, roundup. rewrite (f32_exact k x) by (lia || assumption). assert (P : 0 < 2 ^ k) by (apply Z.pow_pos_nonneg; lia).
  assert (V : (x + 2 ^ k - 1) / 2 ^ k * 2 ^ k = x).
  { pose proof (Z.div_mod x (2 ^ k) ltac:(lia)) as E. rewrite D, Z.add_0_r in E. rewrite E at 1. replace (2 ^ k * (x / 2 ^ k) + 2 ^ k - 1) with ((x / 2 ^ k) * 2 ^ k + (2 ^ k - 1)) by lia.
    rewrite Z.div_add_l by lia. rewrite (Z.div_small (2 ^ k - 1)) by lia. lia. }
  rewrite V. assert (U : 2 ^ (k + 24) <= 2 ^ 54) by (apply Z.pow_le_mono_r; lia). change (2 ^ 54) with 18014398509481984 in U.
  destruct (Z.ltb_spec x W64) as [_|C]; [|rewrite W64_val in C; lia]. cbn [rbind]. destruct (Z.eqb_spec base 0) as [Z0|_]; [contradiction|reflexivity].
Qed.
