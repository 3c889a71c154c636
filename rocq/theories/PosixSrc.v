(** What the light source and the registry need when the memory is changed by others, and what they change. *)
From Verif Require Import Word Res Mem ChainModel ChainPut RegionModel RegionSpec RegionProofs LightModel LightSpec LightProofs.
From Coq Require Import ZArith List Bool Lia Permutation.
Import ListNotations.
Open Scope Z_scope.

Definition within (l : list (Z * Z)) (x : Z) : Prop := exists b z, In (b, z) l /\ b <= x < b + z.

(** ** The source *)
Lemma wr_frame a n v s s' : wr a n v s = Ok s' -> lmap s' = lmap s /\ forall x, ~ within (lmap s) x -> lmem s' x = lmem s x.
Proof.
  intros E. unfold wr in E. destruct (accb _ _ _) eqn:A; [|discriminate]. injection E as <-. split; [reflexivity|]. intros x Hx. cbn [lmem lset_mem].
  apply sto_other. apply accb_range in A as (b & z & K1 & K2 & K3). destruct (Z_lt_dec x a); [lia|]. destruct (Z_le_dec (a + Z.of_nat n) x); [lia|].
  exfalso. apply Hx. exists b, z. split; [exact K1|lia].
Qed.
Lemma setup_frame b z s s' : setup_header b z s = Ok s' -> lmap s' = lmap s /\ forall x, ~ within (lmap s) x -> lmem s' x = lmem s x.
Proof.
  intros E. unfold setup_header in E.
  destruct (wr b 7 z s) as [s1| | |] eqn:E1; try discriminate. cbn [rbind] in E.
  destruct (wr (b + 7) 1 b s1) as [s2| | |] eqn:E2; try discriminate. cbn [rbind] in E.
  destruct (wr (b + 15) 1 _ s2) as [s3| | |] eqn:E3; try discriminate. cbn [rbind] in E.
  destruct (wr (b + 8) 7 0 s3) as [s4| | |] eqn:E4; try discriminate. cbn [rbind] in E.
  apply wr_frame in E1 as (A1 & B1). apply wr_frame in E2 as (A2 & B2). apply wr_frame in E3 as (A3 & B3). apply wr_frame in E4 as (A4 & B4). apply wr_frame in E as (A5 & B5).
  split; [congruence|]. intros x Hx. rewrite B5, B4, B3, B2, B1 by congruence. reflexivity.
Qed.
Lemma request_frame g f n gr s b s' : request g f n gr s = Ok (b, s') ->
  (lmap s' = lmap s \/ exists b', gr = Some b' /\ lmap s' = (b', n) :: lmap s) /\ forall x, ~ within (lmap s') x -> lmem s' x = lmem s x.
Proof.
  intros E. unfold request in E. destruct (n =? 0); [injection E as <- <-; auto|].
  assert (K : forall b1 s1, (if keep g s n false then find_in_cache f n s else Ok (0, s)) = Ok (b1, s1) ->
     lmap s1 = lmap s /\ forall x, ~ within (lmap s) x -> lmem s1 x = lmem s x).
  { intros b1 s1. destruct (keep g s n false); [|intros H; injection H as <- <-; auto]. unfold find_in_cache.
    destruct (find_loop f n 0 (lcache s) s) as [[b2 prev]| | |]; try discriminate. cbn [rbind]. destruct (b2 =? 0); [intros H; injection H as <- <-; auto|].
    destruct (rd b2 8 s) as [nx| | |]; try discriminate. cbn [rbind].
    assert (K1 : forall s2, (if prev =? 0 then Ok (lset_cache s nx) else wr prev 8 nx s) = Ok s2 -> lmap s2 = lmap s /\ forall x, ~ within (lmap s) x -> lmem s2 x = lmem s x).
    { intros s2. destruct (prev =? 0); [intros H; injection H as <-; auto|apply wr_frame]. }
    destruct (if prev =? 0 then _ else _) as [s2| | |]; try discriminate. destruct (K1 s2 eq_refl) as (M1 & F1). cbn [rbind].
    destruct (rd (b2 + 8) 8 _) as [z1| | |]; try discriminate. cbn [rbind].
    destruct (rd (b2 + 8) 8 _) as [z2| | |]; try discriminate. cbn [rbind].
    destruct (setup_header b2 z2 _) as [s3| | |] eqn:E3; try discriminate. cbn [rbind]. intros H. injection H as <- <-.
    apply setup_frame in E3 as (M2 & F2). cbn [lset_sz lset_cnt lmap lmem] in M2, F2. split; [congruence|]. intros x Hx. rewrite F2 by congruence. apply F1. exact Hx. }
  destruct (if keep g s n false then _ else _) as [[b1 s1]| | |]; try discriminate. destruct (K b1 s1 eq_refl) as (M1 & F1). cbn [rbind] in E.
  destruct (b1 =? 0).
  - unfold new_segment in E. destruct gr as [b'|].
    + destruct (b' =? 0); [discriminate|]. destruct (setup_header b' n _) as [s2| | |] eqn:E2; try discriminate. cbn [rbind] in E. injection E as <- <-.
      apply setup_frame in E2 as (M2 & F2). cbn [lset_map lset_cnt lmap lmem] in *. split; [right; exists b'; split; [reflexivity|congruence]|].
      intros x Hx. rewrite F2 by congruence. apply F1. intros (b0 & z0 & K1 & K2). apply Hx. exists b0, z0. split; [rewrite M2; right; congruence|exact K2].
    + destruct (MAP_FAILED =? 0); [discriminate|]. destruct (setup_header MAP_FAILED n _) as [s2| | |] eqn:E2; try discriminate. cbn [rbind] in E. injection E as <- <-.
      apply setup_frame in E2 as (M2 & F2). cbn [lset_cnt lmap lmem] in *. split; [left; congruence|].
      intros x Hx. rewrite F2 by congruence. apply F1. congruence.
  - injection E as <- <-. split; [left; exact M1|]. intros x Hx. apply F1. congruence.
Qed.
Lemma free_frame g b s s' : free_memory g b s = Ok s' -> incl (lmap s') (lmap s) /\ forall x, ~ within (lmap s) x -> lmem s' x = lmem s x.
Proof.
  intros E. unfold free_memory in E. destruct (rd b 7 s) as [z| | |]; try discriminate. cbn [rbind] in E.
  destruct (wr b 8 0 s) as [s1| | |] eqn:E1; try discriminate. cbn [rbind] in E.
  destruct (wr (b + 8) 8 z s1) as [s2| | |] eqn:E2; try discriminate. cbn [rbind] in E.
  destruct (rd (b + 8) 8 s2) as [z2| | |]; try discriminate. cbn [rbind] in E.
  apply wr_frame in E1 as (M1 & F1). apply wr_frame in E2 as (M2 & F2).
  assert (K : forall s3, (if keep g s2 z2 true then reg_in_cache b s2 else munmap b z2 s2) = Ok s3 -> incl (lmap s3) (lmap s2) /\ forall x, ~ within (lmap s2) x -> lmem s3 x = lmem s2 x).
  { intros s3. destruct (keep g s2 z2 true).
    - unfold reg_in_cache. destruct (wr b 8 (lcache s2) s2) as [s4| | |] eqn:E4; try discriminate. cbn [rbind]. destruct (rd (b + 8) 8 _) as [z3| | |]; try discriminate.
      cbn [rbind]. intros H. injection H as <-. apply wr_frame in E4 as (M4 & F4). cbn [lset_sz lset_cache lmap lmem]. rewrite M4. split; [intros r Hr; exact Hr|exact F4].
    - unfold munmap. destruct (existsb _ _); [|discriminate]. intros H. injection H as <-. cbn [lset_map lmap lmem]. split; [intros r Hr; apply filter_In in Hr; tauto|auto]. }
  destruct (if keep g s2 z2 true then _ else _) as [s3| | |]; try discriminate. destruct (K s3 eq_refl) as (I3 & F3). cbn [rbind] in E. injection E as <-.
  cbn [lset_cnt lmap lmem]. split; [rewrite <- M1, <- M2; exact I3|]. intros x Hx. rewrite F3, F2, F1 by congruence. reflexivity.
Qed.
(** Others may write anywhere but in the cached segments, if they leave the sizes of the others in place. *)
Lemma linv_mem s out C m : LInv s out C -> (forall b n, In (b, n) C -> forall x, b <= x < b + 16 -> m x = lmem s x) ->
  (forall b n, In (b, n) out -> ld m b 7 = n) -> LInv (lset_mem s m) out C.
Proof.
  intros [] H1 H2. constructor; cbn [lset_mem lmap lmem lcache lsz lcnt]; try assumption. apply (links_frame C (lmem s)); assumption.
Qed.
Lemma linv_out s out out' C : LInv s out C -> Permutation out out' -> LInv s out' C.
Proof.
  intros [] P. constructor; try assumption.
  - rewrite li_perm. apply Permutation_app_head. exact P.
  - intros b n H. apply li_hdr. apply (Permutation_in _ (Permutation_sym P)). exact H.
  - rewrite li_cnt. f_equal. apply Permutation_length. exact P.
Qed.
Lemma linv_sep s out C x y : LInv s out C -> In x out -> In y C -> disj x y.
Proof.
  intros I Hx Hy. destruct (nodup_app_inv _ _ _ (li_nd _ _ _ I)) as (_ & _ & N).
  destruct (li_disj _ _ _ I x y (li_in_out _ _ _ _ I Hx) (li_in_C _ _ _ _ I Hy)) as [->|D]; [exfalso; exact (N _ Hy Hx)|exact D].
Qed.

(** ** The registry *)
Lemma rinv_hdr r h h' L : RInv (mkR r h) L -> (forall x, In x L -> h' (sb x) = Some (ss x, sc x)) -> RInv (mkR r h') L.
Proof. intros [] H. constructor; assumption. Qed.
Lemma rinv_iff s L L' : RInv s L -> (forall x, In x L <-> In x L') -> RInv s L'.
Proof.
  intros [] H. constructor.
  - intros x Hx. apply i_ok. apply H. exact Hx.
  - intros x y Hx Hy. apply i_apart; apply H; assumption.
  - intros x Hx. apply i_hdr. apply H. exact Hx.
  - intros k K1 K2 x Hx. apply (i_none k K1 K2). apply H. exact Hx.
  - intros k K1 K2. destruct (i_some k K1 K2) as (x & X1 & X2). exists x. split; [apply H; exact X1|exact X2].
Qed.
