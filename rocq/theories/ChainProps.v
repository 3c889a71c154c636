(** Consequences of the invariant, phrased with the vocabulary of ChainSpec. *)
From Verif Require Import Word Res Mem SizeClassModel SizeClassProofs ChainModel Wp ChainInv ChainZip ChainList ChainFl ChainPrim ChainFind ChainSplit ChainMerge ChainOps ChainAlloc ChainFree ChainSpec ChainCore ChainCoreFree ChainStep ChainRealloc ChainQueue ChainRefill ChainFuel ChainTrace.
From Coq Require Import ZArith List Bool Lia Permutation.
Import ListNotations.
Open Scope Z_scope.

Lemma blocks_used g s o A F b : Good g s o A F -> In b (blocks o) -> exists e, In (bp b, bn b, bd b, e) (used A).
Proof. intros G H. destruct b as [p n d]. eapply core_in; [exact (gd_core _ _ _ _ _ G)|exact H]. Qed.
Lemma used_blocks g s o A F p n d e : Good g s o A F -> In (p, n, d, e) (used A) -> In (mkBlk p n d) (blocks o).
Proof.
  intros G H. apply Permutation_in with (1 := co_live _ _ _ _ _ (gd_core _ _ _ _ _ G)).
  apply in_map_iff. exists (p, n, d, e). split; [reflexivity|exact H].
Qed.
Lemma good_world g s o A F : Good g s o A F -> World g (srng s) (smem s) A.
Proof. intros G. exact (iv_w _ _ _ _ (co_inv _ _ _ _ _ (gd_core _ _ _ _ _ G))). Qed.

Lemma usable_ok g s o A F p n d e : Good g s o A F -> In (p, n, d, e) (used A) -> usable s p (e - p).
Proof.
  intros G H. assert (US : wp (usable_size p) s (fun u s' => u = e - p /\ s' = s)) by (eapply usable_spec; [eapply good_world; exact G|exact H|auto]).
  unfold wp in US. unfold usable. destruct (usable_size p s) as [[u s1]| | |]; try contradiction. destruct US as (-> & ->). reflexivity.
Qed.
Lemma usable_eq s p u u' : usable s p u -> usable s p u' -> u = u'.
Proof. unfold usable. congruence. Qed.

(** Everything about one block. *)
Lemma block_info g s o A F b : Good g s o A F -> In b (blocks o) ->
  exists u x z, usable s (bp b) u /\ In (bp b, bn b, bd b, bp b + u) (used A) /\ In (x, z) (segs o) /\
    x + 48 <= bp b /\ bp b + u <= x + z - 16 /\ 1 <= bn b <= u /\ 16 <= u.
Proof.
  intros G H. destruct (blocks_used _ _ _ _ _ _ G H) as (e & HU).
  destruct (used_in _ _ _ _ _ _ _ _ (good_world _ _ _ _ _ G) HU) as (sg & J1 & J2 & J3 & J4 & J5 & J6).
  exists (e - bp b), (gbase sg), (gsize sg). split; [eapply usable_ok; eauto|].
  split; [replace (bp b + (e - bp b)) with e by lia; exact HU|].
  split; [rewrite (gd_segs _ _ _ _ _ G); exact (in_map segr _ _ J1)|]. lia.
Qed.

(** ** C01 *)
Lemma esep_sym u v : esep u v -> esep v u.
Proof. unfold esep. tauto. Qed.
Lemma FOP_in {T} (R : T -> T -> Prop) l x y : ForallOrdPairs R l -> (forall a b, R a b -> R b a) -> In x l -> In y l -> x <> y -> R x y.
Proof. intros H S H1 H2 N. destruct (ForallOrdPairs_In H _ _ H1 H2) as [E|[E|E]]; [contradiction|exact E|apply S; exact E]. Qed.

Lemma blocks_apart g s o : reach g s o ->
  NoDup (map bp (blocks o)) /\
  forall b1 b2 u1 u2, In b1 (blocks o) -> In b2 (blocks o) -> b1 <> b2 -> usable s (bp b1) u1 -> usable s (bp b2) u2 ->
    apart (bp b1, u1) (bp b2, u2).
Proof.
  intros R. destruct (reach_good _ _ _ R) as (A & F & G). assert (N := core_nodup _ _ _ _ _ (gd_core _ _ _ _ _ G)).
  split; [exact N|]. intros b1 b2 u1 u2 H1 H2 NE U1 U2.
  destruct (blocks_used _ _ _ _ _ _ G H1) as (e1 & HU1). destruct (blocks_used _ _ _ _ _ _ G H2) as (e2 & HU2).
  rewrite (usable_eq _ _ _ _ U1 (usable_ok _ _ _ _ _ _ _ _ _ G HU1)), (usable_eq _ _ _ _ U2 (usable_ok _ _ _ _ _ _ _ _ _ G HU2)).
  assert (S : esep (bp b1, bn b1, bd b1, e1) (bp b2, bn b2, bd b2, e2)).
  { apply (FOP_in _ _ _ _ (used_sep _ _ _ _ (good_world _ _ _ _ _ G)) esep_sym HU1 HU2).
    intros E. injection E as E1 E2 E3 _. apply NE. destruct b1, b2; cbn in *; congruence. }
  unfold esep, eend, eptr in S. cbn [fst snd] in S. unfold apart. cbn [fst snd]. lia.
Qed.

(** ** C02, C13 *)
Lemma blocks_inside g s o : reach g s o -> forall b, In b (blocks o) ->
  exists u x z, usable s (bp b) u /\ bn b <= u /\ 1 <= bn b /\ In (x, z) (segs o) /\ x + 48 <= bp b /\ bp b + u <= x + z - 16.
Proof.
  intros R b H. destruct (reach_good _ _ _ R) as (A & F & G).
  destruct (block_info _ _ _ _ _ _ G H) as (u & x & z & K1 & K2 & K3 & K4 & K5 & K6 & K7). exists u, x, z.
  split; [exact K1|]. split; [lia|]. split; [lia|]. split; [exact K3|]. lia.
Qed.
Lemma segs_apart g s o : reach g s o -> ForallOrdPairs apart ((cpool g, POOL_SIZE) :: segs o).
Proof.
  intros R. destruct (reach_good _ _ _ R) as (A & F & G). assert (W := good_world _ _ _ _ _ G).
  assert (D := wd_disj _ _ _ _ W). rewrite (wd_rng _ _ _ _ W) in D. apply FOP_app in D as (D1 & D2 & D3).
  rewrite (gd_segs _ _ _ _ _ G). constructor; [|exact D1].
  apply Forall_forall. intros x Hx. specialize (D3 x (cpool g, POOL_SIZE) Hx (or_introl eq_refl)).
  unfold disj2 in D3. unfold apart. tauto.
Qed.

(** A call that returns a pointer: the block. *)
Lemma alloc_block g s o d n gr fuel r s' : reach g s o -> valid g s o (OAlloc d n gr) ->
  step fuel g (OAlloc d n gr) s = Ok (r, s') -> r <> 0 ->
  In (mkBlk r n d) (live (next o (OAlloc d n gr) r (sevs s'))) /\ reach g s' (next o (OAlloc d n gr) r (sevs s')) /\
  ~ In r (map bp (blocks o)).
Proof.
  intros R V E Hr. assert (R' := reach_step _ _ _ _ _ _ _ R V E). split; [|split; [exact R'|]].
  - cbn [next live]. destruct (Z.eqb_spec r 0); [contradiction|]. left. reflexivity.
  - destruct (reach_good _ _ _ R') as (A & F & G). assert (N := core_nodup _ _ _ _ _ (gd_core _ _ _ _ _ G)).
    cbn [next live pend] in N. destruct (Z.eqb_spec r 0); [contradiction|]. cbn [app map] in N.
    inversion N as [|? ? N1 N2]; subst. exact N1.
Qed.

(** ** C03 *)
Lemma used_al g s o A F p n d e : Good g s o A F -> In (p, n, d, e) (used A) ->
  (1 < d -> p mod d = 0) /\ (d <= 1 -> exists x z, In (x, z) (segs o) /\ x + 48 <= p < x + z /\ (p - x) mod 16 = 0).
Proof.
  intros G H. destruct (used_zip _ _ _ _ _ H) as (S1 & b & z & l1 & c & l2 & S2 & EA & Ee).
  assert (W := good_world _ _ _ _ _ G). rewrite EA in W. assert (HC := world_chunk _ _ _ _ _ _ _ _ _ _ _ _ W eq_refl).
  destruct HC as (H1 & H2 & _ & (K1 & K2 & K3 & K4 & K5 & (K6 & K7)) & J1 & J2 & J3 & J4 & J5 & J6 & J7 & J8 & J9 & J10).
  split; [exact K7|]. intros L. specialize (K6 L). exists b, z.
  split; [rewrite (gd_segs _ _ _ _ _ G), EA, map_app; apply in_or_app; right; left; reflexivity|].
  split; [lia|]. replace (p - b) with (b + 32 + tot l1 - b + 1 * 16) by lia. rewrite Z_mod_plus_full. exact J9.
Qed.
Lemma blocks_aligned g s o : reach g s o -> forall b, In b (blocks o) ->
  (1 < bd b -> bp b mod bd b = 0) /\
  ((forall x z, In (x, z) (segs o) -> x mod 16 = 0) -> bd b <= 1 -> bp b mod 16 = 0).
Proof.
  intros R b H. destruct (reach_good _ _ _ R) as (A & F & G). destruct (blocks_used _ _ _ _ _ _ G H) as (e & HU).
  destruct (used_al _ _ _ _ _ _ _ _ _ G HU) as (H1 & H2). split; [exact H1|]. intros AL L.
  destruct (H2 L) as (x & z & J1 & J2 & J3). specialize (AL _ _ J1). lia.
Qed.

(** ** C04 *)
Lemma next_live g s o c r evs b : In b (live o) -> valid g s o c -> ~ target c (bp b) -> In b (live (next o c r evs)).
Proof.
  intros H V NT. assert (RM : forall p, bp b <> p -> In b (rm p (live o))).
  { intros p Hp. apply filter_In. split; [exact H|]. destruct (Z.eqb_spec (bp b) p); [contradiction|reflexivity]. }
  destruct c as [d n gr|p|h p n gr|bb z|x v|p| |m]; cbn [next live target] in *; auto.
  - destruct (r =? 0); [exact H|right; exact H].
  - destruct (p =? 0). { destruct (r =? 0); [exact H|right; exact H]. }
    destruct (n =? 0); [auto|]. destruct (r =? p).
    + apply in_map_iff. exists b. split; [|exact H]. destruct (Z.eqb_spec (bp b) p); [contradiction|reflexivity].
    + destruct (r =? 0); [auto|right; auto].
Qed.

Lemma step_kept g s o c fuel r s' b u : reach g s o -> valid g s o c -> step fuel g c s = Ok (r, s') ->
  In b (live o) -> ~ target c (bp b) -> usable s (bp b) u ->
  In b (live (next o c r (sevs s'))) /\ usable s' (bp b) u /\
  forall x, bp b <= x < bp b + u -> ~ written c x -> smem s' x = smem s x.
Proof.
  intros R V E H NT U. destruct (reach_good _ _ _ R) as (A & F & G).
  destruct (step_any fuel g s o c r s' (step_post g s o A c)) as (A' & F' & G' & K & _); [|exact E|].
  { intros f Hf. eapply step_all; eauto. }
  split; [eapply next_live; eauto|].
  destruct (blocks_used _ _ _ _ _ b G) as (e & HU); [apply in_or_app; left; exact H|].
  assert (EU := usable_eq _ _ _ _ U (usable_ok _ _ _ _ _ _ _ _ _ G HU)). subst u.
  destruct (K _ _ _ _ HU) as (K1 & K2); [apply in_map; exact H|exact NT|].
  split; [eapply usable_ok; eauto|]. intros x Hx. apply K2. lia.
Qed.

Lemma steps_reach g s o cs s' o' : reach g s o -> steps g s o cs s' o' -> reach g s' o'.
Proof. intros R H. induction H as [|s o fuel c r s1 cs s2 o2 V E H IH]; [exact R|]. apply IH. eapply reach_step; eauto. Qed.
Lemma steps_kept g s o cs s' o' b u : reach g s o -> steps g s o cs s' o' -> In b (live o) ->
  (forall c, In c cs -> ~ target c (bp b)) -> usable s (bp b) u ->
  In b (live o') /\ usable s' (bp b) u /\
  forall x, bp b <= x < bp b + u -> (forall c, In c cs -> ~ written c x) -> smem s' x = smem s x.
Proof.
  intros R H. revert R. induction H as [|s o fuel c r s1 cs s2 o2 V E H IH]; intros R HB NT U.
  - repeat split; auto.
  - destruct (step_kept _ _ _ _ _ _ _ _ _ R V E HB (NT c (or_introl eq_refl)) U) as (K1 & K2 & K3).
    destruct (IH (reach_step _ _ _ _ _ _ _ R V E) K1 (fun c' Hc => NT c' (or_intror Hc)) K2) as (J1 & J2 & J3).
    split; [exact J1|]. split; [exact J2|]. intros x Hx NW.
    rewrite J3, K3; [reflexivity|exact Hx|exact (NW c (or_introl eq_refl))|exact Hx|intros c' Hc; exact (NW c' (or_intror Hc))].
Qed.

(** ** C05 *)
Lemma step_runs g s o c fuel : reach g s o -> valid g s o c -> fuel_ok g o c fuel ->
  exists r s', step fuel g c s = Ok (r, s') /\ reach g s' (next o c r (sevs s')) /\
    forall x, (forall b z, In (b, z) ((cpool g, POOL_SIZE) :: segs o) \/ In (EGet b z) (sevs s') \/ c = ORefill b z -> ~ b <= x < b + z) ->
      smem s' x = match c with OStore m => m x | _ => smem s x end.
Proof.
  intros R V HF. destruct (reach_good _ _ _ R) as (A & F & G).
  destruct (wp_run _ _ _ (step_all fuel g s o A F c G V HF)) as (r & s' & E & A' & F' & G' & K & O).
  exists r, s'. split; [exact E|]. split; [eapply reach_step; eauto|].
  intros x Hx. apply O. intros b z [H|H]; [|apply Hx; auto]. apply Hx. left.
  rewrite (gd_segs _ _ _ _ _ G). rewrite (wd_rng _ _ _ _ (good_world _ _ _ _ _ G)) in H.
  apply in_app_or in H. destruct H as [H|[H|[]]]; [right; exact H|left; exact H].
Qed.
(** Never a wild access nor an abort, whatever the fuel: a call with too little fuel only runs out of it. *)
Lemma step_safe g s o c fuel : reach g s o -> valid g s o c -> step fuel g c s = OutOfFuel \/ exists r s', step fuel g c s = Ok (r, s').
Proof.
  intros R V. set (f := Nat.max fuel (Z.to_nat (held o + extra g c + 1))).
  assert (FO : fuel_ok g o c f) by (unfold fuel_ok, f; lia).
  destruct (step_runs g s o c f R V FO) as (r & s' & E & _). unfold step in *.
  destruct (exec_fuel fuel f g c ltac:(unfold f; lia) (clear_ev s)) as [K|K]; [left; exact K|right; exists r, s'; congruence].
Qed.
Lemma init_runs g m : wf_cfg g -> exists s, base_init g (init_state g m) = Ok (tt, s) /\ reach g s (mkObs [] [] []) /\
  (forall x, ~ cpool g <= x < cpool g + POOL_SIZE -> smem s x = m x).
Proof.
  intros H. destruct (wp_run _ _ _ (init_good g m H)) as ([] & s & E & G & _ & _ & K). exists s. split; [exact E|].
  split; [eapply reach_init; eauto|exact K].
Qed.
