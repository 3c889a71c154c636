(** From single calls to histories. *)
From Verif Require Import Word Res Mem SizeClassModel SizeClassProofs ChainModel Wp ChainInv ChainZip ChainList ChainFl ChainPrim ChainFind ChainSplit ChainMerge ChainOps ChainAlloc ChainFree ChainSpec ChainCore ChainCoreFree ChainStep ChainRealloc ChainQueue ChainRefill ChainFuel.
From Coq Require Import ZArith List Bool Lia Permutation.
Import ListNotations.
Open Scope Z_scope.

Definition kept (s s' : st) (o : obs) (A A' : list seg) (c : op) : Prop :=
  forall q n d e, In (q, n, d, e) (used A) -> In q (map bp (live o)) -> ~ target c q ->
    In (q, n, d, e) (used A') /\ forall x, q <= x < e -> ~ written c x -> smem s' x = smem s x.
Definition outside (s s' : st) (c : op) : Prop :=
  forall x, (forall b z, In (b, z) (srng s) \/ In (EGet b z) (sevs s') \/ c = ORefill b z -> ~ b <= x < b + z) ->
    smem s' x = match c with OStore m => m x | _ => smem s x end.
Definition step_post (g : cfg) (s : st) (o : obs) (A : list seg) (c : op) (r : Z) (s' : st) : Prop :=
  exists A' F', Good g s' (next o c r (sevs s')) A' F' /\ kept s s' o A A' c /\ outside s s' c.

Lemma post_step g s o A c out r s' : post g s o A c out r s' ->
  (forall q, In q (map bp (live o)) -> out q -> target c q) -> (forall m, c <> OStore m) -> step_post g s o A c r s'.
Proof.
  intros (A' & F' & P1 & P2 & P3) H NS. exists A', F'. split; [exact P1|]. split.
  - intros q n d e HI HL HT. destruct (P2 q n d e HI) as (K1 & K2); [intros K; apply HT; exact (H _ HL K)|]. split; [exact K1|]. intros x Hx _. exact (K2 x Hx).
  - intros x Hx. transitivity (smem s x); [|destruct c; try reflexivity; exfalso; exact (NS m eq_refl)]. apply P3. intros b z [K|K]; apply Hx; auto.
Qed.

Lemma pend_not_live g s o A F q : Core g s (live o ++ pend o) A F -> In q (map bp (live o)) -> In q (map bp (pend o)) -> False.
Proof.
  intros C H1 H2. assert (N := core_nodup _ _ _ _ _ C). rewrite map_app in N.
  revert H1 H2 N. generalize (map bp (live o)) (map bp (pend o)). intros l1 l2 H1 H2 N.
  induction l1 as [|x l1 IH]; [contradiction|]. cbn [app] in N. inversion N as [|? ? N1 N2]; subst.
  destruct H1 as [->|H1]; [apply N1; apply in_or_app; right; exact H2|exact (IH H1 N2)].
Qed.

Lemma step_all fuel g s o A F c : Good g s o A F -> valid g s o c -> fuel_ok g o c fuel ->
  wp (exec fuel g c) (clear_ev s) (step_post g s o A c).
Proof.
  intros GD V HF. assert (C0 := gd_core _ _ _ _ _ GD). assert (W := iv_w _ _ _ _ (co_inv _ _ _ _ _ C0)).
  destruct c as [d n gr|p|h p n gr|b z|x v|p| |m].
  - eapply wp_mono; [apply (step_alloc fuel g s o A F GD d n gr V HF)|]. intros r s' P. eapply post_step; [exact P| |discriminate]. intros q _ [].
  - eapply wp_mono; [apply (step_free fuel g s o A F GD p V HF)|]. intros r s' P. eapply post_step; [exact P| |discriminate]. intros q _ E. exact E.
  - eapply wp_mono; [apply (step_realloc fuel g s o A F GD h p n gr V HF)|]. intros r s' (P & _). eapply post_step; [exact P| |discriminate]. intros q _ E. exact E.
  - eapply wp_mono; [apply (step_refill fuel g s o A F GD b z V)|]. intros r s' (A' & F' & G' & E & EA & CH).
    assert (DJ : forall q n d e y, In (q, n, d, e) (used A) -> q <= y < e -> ~ scratch g A y /\ ~ b <= y < b + z).
    { intros q n d e y HI Hy. split; [eapply used_not_scratch; [exact W|exact HI|exact Hy]|].
      destruct V as (_ & [(-> & ->)|V]); [lia|]. destruct (used_in _ _ _ _ _ _ _ _ W HI) as (sg & J1 & J2 & J3 & J4 & J5 & J6).
      destruct V as (_ & _ & _ & _ & _ & V). specialize (V (segr sg)). rewrite (gd_segs _ _ _ _ _ GD) in V.
      specialize (V ltac:(right; apply in_map; exact J1)). unfold apart, segr in V. cbn [fst snd] in V. lia. }
    exists A', F'. split; [exact G'|]. split.
    + intros q n d e HI _ _. split; [destruct EA as [->|(_ & ->)]; [exact HI|cbn; exact HI]|].
      intros y Hy _. destruct (DJ _ _ _ _ _ HI Hy). apply CH; assumption.
    + intros y Hy. apply CH; [|apply Hy; right; right; reflexivity].
      intros K. destruct (scratch_rng _ _ _ _ _ W K) as (b' & z' & K1 & K2). exact (Hy _ _ (or_introl K1) K2).
  - eapply wp_mono; [apply (step_write fuel g s o A F GD x v V)|]. intros r s' (A' & F' & G' & -> & _ & CH).
    exists A, F'. split; [exact G'|]. split.
    + intros q n d e HI _ _. split; [exact HI|]. intros y Hy NW. apply CH. intros ->. apply NW. reflexivity.
    + intros y Hy. apply CH. intros ->. destruct V as (p & n & d & u & s1 & V1 & V2 & V3).
      destruct (core_in _ _ _ _ _ p n d C0) as (e & HU); [apply in_or_app; left; exact V1|].
      assert (US : wp (usable_size p) s (fun u s' => u = e - p)) by (eapply usable_spec; [exact W|exact HU|reflexivity]).
      unfold wp in US. rewrite V2 in US. subst u.
      destruct (used_in _ _ _ _ _ _ _ _ W HU) as (sg & J1 & J2 & J3 & J4 & J5 & J6).
      apply (Hy (gbase sg) (gsize sg)); [left; exact (w_in_rng _ _ _ _ W _ J1)|lia].
  - eapply wp_mono; [apply (step_remote fuel g s o A F GD p V)|]. intros r s' P. eapply post_step; [exact P| |discriminate].
    intros q HL [E|E]; [exact E|exfalso; exact (pend_not_live _ _ _ _ _ _ C0 HL E)].
  - eapply wp_mono; [apply (step_purge fuel g s o A F GD HF)|]. intros r s' P. eapply post_step; [exact P| |discriminate].
    intros q HL E. exfalso; exact (pend_not_live _ _ _ _ _ _ C0 HL E).
  - eapply wp_mono; [apply (step_store fuel g s o A F GD m V)|]. intros r s' (A' & F' & G' & -> & EM).
    exists A, F'. split; [exact G'|]. split; [|intros y Hy; rewrite EM; reflexivity].
    intros q n d e HI _ _. split; [exact HI|]. intros y Hy NW. exfalso. apply NW. exact I.
Qed.

(** Any returning call, whatever the fuel it was given, satisfies what is proved with enough fuel. *)
Lemma step_any fuel g s o c r s' (Q : Z -> st -> Prop) :
  (forall f, fuel_ok g o c f -> wp (exec f g c) (clear_ev s) Q) -> step fuel g c s = Ok (r, s') -> Q r s'.
Proof.
  intros H E. set (f := Nat.max fuel (Z.to_nat (held o + extra g c + 1))).
  assert (FO : fuel_ok g o c f) by (unfold fuel_ok, f; lia).
  specialize (H f FO). unfold wp in H. unfold step in E. destruct (exec_fuel fuel f g c ltac:(unfold f; lia) (clear_ev s)) as [K|K]; [congruence|]. rewrite K, E in H. exact H.
Qed.

Lemma reach_good g s o : reach g s o -> exists A F, Good g s o A F.
Proof.
  intros H. induction H as [m s Hg E|s o fuel c r s' H IH V E].
  - assert (G := init_good g m Hg). unfold wp in G. rewrite E in G. exists [], (fun _ => []). exact (proj1 G).
  - destruct IH as (A & F & G).
    destruct (step_any fuel g s o c r s' (step_post g s o A c)) as (A' & F' & G' & _); [|exact E|eauto].
    intros f Hf. eapply step_all; eauto.
Qed.
