From Verif Require Import Word Res SizeClassModel SizeClassProofs DefSrcModel.
From Coq Require Import ZArith List Bool Lia.
Import ListNotations.
Open Scope Z_scope.

Lemma init_diverges : forall base k fuel, 2 <= k -> 0 <= base -> base + k * 2097152 < 2 ^ 48 -> base mod 2097152 = 0 ->
  base / 2 ^ 40 = (base + k * 2097152 - 1) / 2 ^ 40 -> def_init fuel base (k * 2097152) = OutOfFuel.
Proof.
  intros base k fuel K B U M R. change (2 ^ 48) with 281474976710656 in U. change (2 ^ 40) with 1099511627776 in R.
  unfold def_init, MACRO_BLOC. rewrite M, Z.mod_mul by lia. cbn [Z.eqb negb orb].
  destruct (region_loop fuel base (add64 base (k * 2097152)) 0) eqn:L; cbn [rbind]; try reflexivity.
  - unfold insert_segment, MACRO_BLOC. rewrite M, Z.mod_mul by lia. cbn [Z.eqb negb orb]. rewrite R, Z.eqb_refl. cbn [negb].
    unfold dinsert. rewrite sub64_small by (rewrite W64_val; lia).
    rewrite slow_big_mms by (unfold MACRO_BLOC; rewrite S63_val; lia). reflexivity.
  - exfalso. clear -L. revert L. generalize (add64 base (k * 2097152)), 0. revert base. induction fuel as [|fuel IH]; intros b e n; cbn; [discriminate|].
    destruct (b <? e); [apply IH|discriminate].
  - exfalso. clear -L. revert L. generalize (add64 base (k * 2097152)), 0. revert base. induction fuel as [|fuel IH]; intros b e n; cbn; [discriminate|].
    destruct (b <? e); [apply IH|discriminate].
Qed.
Lemma small_init : forall base fuel, 0 <= base -> base + 2097152 < 2 ^ 48 -> base mod 2097152 = 0 -> (2 <= fuel)%nat ->
  exists s, def_init fuel base 2097152 = Ok s /\ dlists s = (fun j => if j =? 0 then [(base, 2093056)] else []).
Proof.
  intros base fuel B U M F. change (2 ^ 48) with 281474976710656 in U. destruct fuel as [|[|fuel]]; [lia|lia|].
  unfold def_init, MACRO_BLOC. rewrite M. change (2097152 mod 2097152) with 0. cbn [Z.eqb negb orb].
  rewrite (add64_small base) by (rewrite W64_val; lia). cbn [region_loop]. destruct (Z.ltb_spec base (base + 2097152)) as [_|C]; [|lia].
  rewrite add64_small by (rewrite W64_val; lia). destruct (Z.ltb_spec (base + 1099511627776) (base + 2097152)) as [C|_]; [lia|]. cbn [rbind].
  unfold insert_segment, MACRO_BLOC. rewrite M. change (2097152 mod 2097152) with 0. cbn [Z.eqb negb orb].
  replace ((base + 2097152 - 1) / 1099511627776) with (base / 1099511627776) by lia. rewrite Z.eqb_refl. cbn [negb].
  unfold dinsert. change (sub64 2097152 4096) with 2093056. unfold get_free_list_slow.
  change (tab MMS_FREE_SIZES 0) with (Ok 2097152). cbn [rbind]. change (s64 2093056 <=? 2097152) with true. cbn [rbind].
  change (tab MMS_FREE_SIZES 0) with (Ok 2097152). cbn [rbind negb andb Z.eqb]. eexists. split; [reflexivity|]. reflexivity.
Qed.
Lemma small_never_serves : forall base fuel s k, 0 <= base -> base + 2097152 < 2 ^ 48 -> base mod 2097152 = 0 -> (2 <= fuel)%nat ->
  def_init fuel base 2097152 = Ok s -> 1 <= k <= 2 ^ 40 -> def_request fuel (k * 2097152) s = if k =? 1 then Ok None else OutOfFuel.
Proof.
  intros base fuel s k B U M F E K. destruct (small_init base fuel B U M F) as (s0 & E0 & L). rewrite E in E0. injection E0 as <-.
  change (2 ^ 40) with 1099511627776 in K.
  unfold def_request, MACRO_BLOC. rewrite Z.mod_mul by lia. cbn [Z.eqb negb]. rewrite sub64_small by (rewrite W64_val; lia). rewrite L.
  unfold dfind, calc_chunk_size. rewrite add64_small by (rewrite W64_val; lia). destruct (Z.leb_spec (k * 2097152 - 16 + 16) 32) as [C|_]; [lia|].
  replace (k * 2097152 - 16 + 16) with (k * 2097152) by lia. destruct (Z.eqb_spec k 1) as [->|N].
  - unfold get_free_list_slow. change (tab MMS_FREE_SIZES 0) with (Ok 2097152). cbn [rbind]. change (s64 (1 * 2097152) <=? 2097152) with true. cbn [rbind].
    vm_compute. reflexivity.
  - rewrite slow_big_mms by (unfold MACRO_BLOC; rewrite S63_val; lia). reflexivity.
Qed.
