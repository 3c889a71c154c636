(** Complements: failed reallocation, wrapping sizes, segments above 2 MB, single return of segments. *)
From Verif Require Import Word Res Mem SizeClassModel SizeClassProofs ChainModel Wp ChainInv ChainZip ChainList ChainFl ChainPrim ChainFind ChainSplit ChainMerge ChainOps ChainAlloc ChainFree ChainSpec ChainCore ChainCoreFree ChainStep ChainRealloc ChainQueue ChainRefill ChainFuel ChainTrace ChainEv ChainProps ChainWalk ChainCap ChainSrc ChainMore.
From Coq Require Import ZArith List Bool Lia.
Import ListNotations.
Open Scope Z_scope.

Lemma get_chunk_live g s o b v s1 : reach g s o -> In b (blocks o) -> get_chunk (bp b) (clear_ev s) = Ok (v, s1) -> v <> 0.
Proof.
  intros R HI E Hv. subst v. destruct (blocks_inside _ _ _ R _ HI) as (u & x & z & U & _ & _ & HS & H1 & _).
  assert (Hx : 0 < x) by (destruct (reach_good _ _ _ R) as (A & F & G); assert (W := good_world _ _ _ _ _ G); 
    rewrite (gd_segs _ _ _ _ _ G) in HS; apply in_map_iff in HS as (sg & ES & HS); destruct (w_segok _ _ _ _ W _ HS) as (K & _); injection ES as <- <-; lia).
  unfold usable, usable_size in U. destruct (Z.eqb_spec (bp b) 0) as [E0|E0]; [lia|].
  unfold get_chunk in E. destruct (Z.eqb_spec (bp b) 0) as [Q|_]; [contradiction|]. cbv zeta in E.
  unfold get_magic, get_type, bind, loadn, ret in E. cbn [clear_ev srng smem] in E.
  destruct (accb (srng s) (bp b - 1) (Z.of_nat 1)) eqn:EA; [|discriminate]. cbn [rbind] in E.
  destruct (negb (i_magic (ld (smem s) (bp b - 1) 1) =? MAGIC)) eqn:EM.
  - unfold get_chunk_unpadded in U. unfold get_chunk in U. destruct (Z.eqb_spec (bp b) 0) as [Q|_]; [contradiction|]. cbv zeta in U.
    unfold get_magic, get_type, bind, loadn, ret in U. rewrite EA in U. cbn [rbind] in U. rewrite EM in U. cbn in U. discriminate.
  - cbn [clear_ev srng smem] in E. rewrite EA in E. cbn [rbind] in E. unfold assume in E. destruct (_ || _) in E; [|discriminate]. cbn in E. injection E as E _. lia.
Qed.

(** A reallocation that returns NULL has done exactly what [free] does. *)
Lemma realloc_fail g s o h p n gr fuel s' m d : reach g s o -> valid g s o (ORealloc h p n gr) -> In (mkBlk p m d) (live o) -> n <> 0 ->
  step fuel g (ORealloc h p n gr) s = Ok (0, s') -> step fuel g (OFree p) s = Ok (0, s').
Proof.
  intros R V HI Hn E. assert (HB := in_or_app (live o) (pend o) _ (or_introl HI)). assert (Hp := block_pos _ _ _ R _ HB). cbn [bp] in Hp.
  unfold step in *. cbn [exec] in *. unfold chain_realloc in E. destruct (Z.eqb_spec p 0) as [E0|E0]; [lia|]. cbn [andb] in E.
  destruct (Z.eqb_spec n 0) as [E1|_]; [lia|]. apply bind_ok in E as (v & s1 & E1 & E).
  assert (Hv := get_chunk_live _ _ _ _ _ _ R HB E1).
  assert (Hs := get_chunk_st _ _ _ _ E1). subst s1. destruct (Z.eqb_spec v 0) as [Ev|_]; [contradiction|].
  apply bind_ok in E as (u & s1 & E2 & E).
  assert (s1 = clear_ev s) as ->.
  { unfold unpad_vchunk in E2. destruct (v =? 0); [injection E2; auto|]. apply bind_ok in E2 as (t & s2 & E3 & E2).
    unfold get_type in E3. apply bind_ok in E3 as (t1 & s3 & E4 & E3). injection E3 as _ <-.
    unfold loadn in E4. destruct (accb _ _ _) in E4; [|discriminate]. injection E4 as _ <-. destruct (t =? T_PADDED); [|injection E2; auto].
    apply bind_ok in E2 as (pd & s2 & E3 & E2). unfold get_padding, loadn in E3. destruct (accb _ _ _) in E3; [|discriminate]. injection E3 as _ <-.
    eapply get_chunk_st; exact E2. }
  apply bind_ok in E as (us & s1 & E3 & E). unfold vsize, get_size, loadn in E3. destruct (accb _ _ _) in E3; [|discriminate]. injection E3 as _ <-.
  cbv zeta in E. apply bind_ok in E as (keep & s1 & E4 & E).
  assert (s1 = clear_ev s) as ->.
  { destruct (_ && _) in E4; [|injection E4; auto]. destruct (_ =? 0) in E4; [discriminate|injection E4; auto]. }
  destruct keep; [injection E as E _; lia|].
  apply bind_ok in E as (r & s1 & E5 & E). apply bind_ok in E as ([] & s2 & E6 & E). apply bind_ok in E as ([] & s3 & E7 & E).
  injection E as -> <-. cbn [Z.eqb] in E6. injection E6 as <-.
  assert (K : s1 = clear_ev s).
  { destruct V as (_ & V & _). destruct (alloc_info g s o h n gr fuel 0 s1 R V E5) as (K & _). apply K. reflexivity. }
  rewrite K in E7. unfold bind. rewrite E7. reflexivity.
Qed.

(** Sizes of the last 16 values of [size_t] wrap: the chain serves them as a request of one byte. *)
Lemma alloc_wraps fuel g gr s n : csrc g = false -> 2 ^ 64 - 16 <= n < 2 ^ 64 ->
  step fuel g (OAlloc 0 n gr) s = step fuel g (OAlloc 0 1 gr) s.
Proof.
  intros Hc Hn. assert (EC : calc_chunk_size n = calc_chunk_size 1).
  { unfold calc_chunk_size, add64, w64. assert (E1 : (n + 16) mod W64 <= 32) by (rewrite W64_val; lia). destruct (Z.leb_spec ((n + 16) mod W64) 32); [reflexivity|lia]. }
  unfold step. cbn [exec]. unfold alloc_align. destruct (Z.eqb_spec n 0) as [E|_]; [lia|]. change (1 =? 0) with false. cbv iota zeta. change (1 <? 0) with false. cbv iota.
  assert (EH : forall k, is_huge g k = false) by (intros; unfold is_huge; rewrite Hc, !andb_false_r || rewrite Hc; reflexivity).
  rewrite !EH. unfold find_free_chunk, split_free_bloc. rewrite EC. reflexivity.
Qed.

(** A segment is put back at most once by a call. *)
Lemma put_once g s o c fuel r s' b : reach g s o -> valid g s o c -> step fuel g c s = Ok (r, s') ->
  forall l1 l2, sevs s' = l1 ++ EPut b :: l2 -> ~ In (EPut b) l1 /\ ~ In (EPut b) l2.
Proof.
  intros R V E.
  assert (NB : In (EPut b) (sevs s') -> forall z', ~ In (EGet b z') (sevs s')).
  { intros HI z' K. destruct (source_put _ _ _ _ _ _ _ _ R V E HI) as (_ & (z & Hz) & _).
    destruct (gets_new _ _ _ _ _ _ _ _ _ R V E K) as (_ & (Q1 & Q2 & Q3 & Q4 & Q5 & Q6)).
    assert (AP : apart (b, z') (b, z)) by (apply Q6; right; exact Hz). assert (SZ := seg_big _ _ _ R _ _ Hz).
    unfold apart in AP. cbn [fst snd] in AP. lia. }
  intros l1 l2 ES.
  assert (NR : not_refill c).
  { destruct c as [d n gr|p|h p n gr|bb z|x v|p| |m]; try exact I. exfalso. unfold step in E. cbn [exec] in E. unfold bind in E.
    destruct (user_refill g bb z (clear_ev s)) as [[t s1]| | |] eqn:E1; try discriminate. injection E as _ <-.
    rewrite (ev_user_refill _ _ _ _ _ _ E1) in ES. cbn in ES. destruct l1; discriminate. }
  destruct (ev_exec fuel g c NR _ _ _ E) as (evs & K1 & K2 & K3 & K4). cbn [clear_ev sevs srng] in K1, K3, K4. rewrite app_nil_r in K1.
  assert (HI : In (EPut b) (sevs s')) by (rewrite ES; apply in_or_app; right; left; reflexivity).
  specialize (NB HI). rewrite <- K1 in K4. clear K1 K2 K3 E evs HI. rewrite ES in *. clear ES.
  assert (N2 : ~ In (EPut b) l2).
  { intros K. assert (H : held_ok (EPut b :: l2) (srng s)). { clear NB. induction l1 as [|e l1 IH]; [exact K4|]. destruct K4 as (K4 & _). auto. }
    destruct H as (_ & H). revert H. apply put_gone; [exact K|]. intros z H. apply (NB z). apply in_or_app. right. right. exact H. }
  split; [|exact N2]. intros K. apply in_split in K as (a1 & a2 & ->).
  assert (H : held_ok (EPut b :: a2 ++ EPut b :: l2) (srng s)).
  { clear NB. rewrite <- app_assoc in K4. cbn [app] in K4. induction a1 as [|e a1 IH]; [exact K4|]. destruct K4 as (K4 & _). auto. }
  destruct H as (_ & H). revert H. apply put_gone; [apply in_or_app; right; left; reflexivity|].
  intros z H. apply (NB z). rewrite <- app_assoc. apply in_or_app. right. right. exact H.
Qed.

(** ** What surrounds a block *)
Lemma walk_range f m : forall a e l, walk f m a e = Some l -> (forall w c t, In (w, c, t) l -> 32 <= c) ->
  a <= e /\ (forall w c t, In (w, c, t) l -> a <= w /\ w + c <= e) /\
  (forall w1 c1 t1 w2 c2 t2, In (w1, c1, t1) l -> In (w2, c2, t2) l -> (w1, c1, t1) = (w2, c2, t2) \/ apart (w1, c1) (w2, c2)).
Proof.
  induction f as [|f IH]; intros a e l H HC; cbn [walk] in H; [discriminate|]. destruct (Z.eqb_spec a e) as [E|E].
  - injection H as <-. split; [lia|]. split; [intros ? ? ? []|intros ? ? ? ? ? ? []].
  - destruct (walk f m (a + ld m a 7) e) as [l'|] eqn:EW; [|discriminate]. set (q := ld m a 7) in *. clearbody q. set (tt0 := (_ =? _)) in H. clearbody tt0. injection H as <-.
    destruct (IH _ _ _ EW (fun w c t H => HC w c t (or_intror H))) as (K1 & K2 & K3). assert (K4 : 32 <= q) by (eapply HC; left; reflexivity).
    split; [lia|]. split.
    + intros w c t [H|H]; [injection H as <- <- _; lia|]. specialize (K2 _ _ _ H). lia.
    + intros w1 c1 t1 w2 c2 t2 [H1|H1] [H2|H2].
      * left. congruence.
      * right. injection H1 as <- <- _. specialize (K2 _ _ _ H2). unfold apart. cbn [fst snd]. lia.
      * right. injection H2 as <- <- _. specialize (K2 _ _ _ H1). unfold apart. cbn [fst snd]. lia.
      * eauto.
Qed.

Lemma size_harmless g s o b : reach g s o -> In b (blocks o) -> exists u, usable s (bp b) u /\ bn b <= u /\
  forall x, bp b <= x < bp b + u ->
    ~ cpool g <= x < cpool g + POOL_SIZE /\
    (forall b' u', In b' (blocks o) -> b' <> b -> usable s (bp b') u' -> ~ bp b' <= x < bp b' + u') /\
    (exists y z, In (y, z) (segs o) /\ y + 48 <= x < y + z - 16) /\
    (forall y z w c f, In (y, z) (segs o) -> In (w, c, f) (chunks (smem s) (y, z)) ->
       ~ w <= x < w + 16 /\ (w <= x < w + c -> f = false /\ occ (smem s) (bp b) = (w, c))).
Proof.
  intros R HI. destruct (blocks_inside _ _ _ R _ HI) as (u & x0 & z0 & U & H1 & H2 & HS & H3 & H4). exists u. split; [exact U|]. split; [exact H1|].
  intros x Hx. assert (SA := segs_apart _ _ _ R). split.
  { intros K. inversion SA as [|? ? FA _]. subst. rewrite Forall_forall in FA. specialize (FA _ HS). unfold apart in FA. cbn [fst snd] in FA. lia. }
  split. { intros b' u' HI' NE U' K. assert (AP := proj2 (blocks_apart _ _ _ R) b b' u u' HI HI' (not_eq_sym NE) U U'). unfold apart in AP. cbn [fst snd] in AP. lia. }
  split. { exists x0, z0. split; [exact HS|lia]. }
  intros y z w c f HY HW. destruct (block_occ _ _ _ R b u HI U) as (w1 & c1 & y1 & z1 & EO & HS1 & HO & K1 & K2 & K3 & K4 & K5 & _).
  destruct (walk_ok _ _ _ R _ HY) as (W1 & W2). assert (W2' := fun w c t H => proj1 (W2 w c t H)). destruct (walk_range _ _ _ _ _ W1 W2') as (_ & Q2 & Q3).
  cbn [fst snd] in Q2. assert (QW := Q2 _ _ _ HW). assert (QC := W2' _ _ _ HW).
  assert (D : (y, z) = (y1, z1) \/ apart (y, z) (y1, z1)).
  { inversion SA as [|? ? _ FA]. subst. destruct (ForallOrdPairs_In FA _ _ HY HS1) as [X|[X|X]]; [left; exact X|right; exact X|right].
    unfold apart in X |- *. cbn [fst snd] in X |- *. lia. }
  destruct D as [D|D]; [|unfold apart in D; cbn [fst snd] in D; split; [|intros K; exfalso]; lia].
  injection D as <- <-.
  assert (HO' : In (w1, c1, false) (chunks (smem s) (y, z))).
  { unfold occ_in in HO. apply in_map_iff in HO as ([[w' c'] f'] & E & HO). apply filter_In in HO as (HO & F'). cbn in E. injection E as -> ->. cbn in F'. destruct f'; [discriminate|exact HO]. }
  destruct (Q3 _ _ _ _ _ _ HW HO') as [X|X].
  - injection X as -> -> ->. split; [lia|]. intros _. split; [reflexivity|exact EO].
  - unfold apart in X. cbn [fst snd] in X. assert (32 <= c) by (eapply W2'; exact HW). split; [|intros K; exfalso]; lia.
Qed.
