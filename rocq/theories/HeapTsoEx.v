(** A small heap for HeapTsoSpec: one block.  Cell 0: is the block in use; cell 1: its header; cells 2 and 3: the block.  The bodies have
    the shape of sctk_allocator.c 1475-1517 (look for a free block, mark it, write the header), 1621-1651 (read the header, put the block
    in the list through its first cell, mark it free) and 911-960 (a scan that reads headers of blocks in use). *)
From Verif Require Import LockModel LockProofs HeapTsoModel HeapTsoSpec HeapTsoProofs.
From Coq Require Import ZArith List Bool Lia.
Import ListNotations.
Open Scope Z_scope.

(** The calls (sctk_allocator.c 1475, 1621, 911). *)
Inductive ecall := EMalloc | EFree | EScan.
(** Their bodies (1475-1517, 1621-1651, 911-960 on one block). *)
Definition ebody (a : ecall) : prog :=
  match a with
  | EMalloc => PRd 0 (fun f => if f =? 0 then PWr 0 1 (PWr 1 16 (PRet 2)) else PRet 0)
  | EFree => PRd 1 (fun n => PWr 2 n (PWr 0 0 (PRet 0)))
  | EScan => PRd 0 (fun f => PRd 1 (fun n => PRet (f * n)))
  end.
(** What is given and got (ghost, no code of its own in /repo). *)
Definition egives (a : ecall) : list Z := match a with EFree => [1; 2; 3] | _ => [] end.
Definition etakes (a : ecall) (r : Z) : list Z := match a with EMalloc => if r =? 2 then [2; 3] else [] | _ => [] end.
Definition eheads (a : ecall) (r : Z) : list Z := match a with EMalloc => if r =? 2 then [1] else [] | _ => [] end.
(** The cells of the block with its header (ghost, no code of its own in /repo). *)
Definition eblk : list Z := [1; 2; 3].
(** The start (ghost, no code of its own in /repo): all of the allocator. *)
Definition em : Z -> Z := fun _ => 0.
Definition eo : Z -> owner := fun _ => OAlloc.

Notation estory := (story ecall ebody egives etakes eheads).
Notation etell := (tell ecall ebody egives etakes eheads).
Record EI (q : seqst ecall) : Prop := {
  e_flag : qo _ q 0 = OAlloc;
  e_free : qm _ q 0 = 0 -> qo _ q 1 = OAlloc /\ qo _ q 2 = OAlloc /\ qo _ q 3 = OAlloc;
  e_head : kind (qo _ q 1) <> Some false;
  e_given : forall t, qc _ q t = SIn _ EFree -> forall c, In c [1; 2; 3] -> exists ro, qo _ q c = OUse ro false t }.

Lemma e_start : EI (q0 _ em eo).
Proof. constructor; cbn; auto; discriminate. Qed.
Lemma e_same q m o p : EI q -> o 0 = OAlloc -> (m 0 = qm _ q 0) -> (forall c, kind (o c) = kind (qo _ q c)) ->
  (forall t c ro, p t = SIn _ EFree -> In c [1; 2; 3] -> qo _ q c = OUse ro false t -> o c = OUse ro false t) -> (forall t, p t = SIn _ EFree -> qc _ q t = SIn _ EFree) ->
  EI (mkQ _ m o p).
Proof.
  intros I O M K G S. assert (KA : forall c, qo _ q c = OAlloc -> o c = OAlloc).
  { intros c E. pose proof (K c) as X. rewrite E in X. destruct (o c); [reflexivity|discriminate]. }
  constructor; cbn -[In].
  - exact O.
  - intros Z0. rewrite M in Z0. destruct (e_free _ I Z0) as (A & B & C). auto.
  - rewrite K. apply I.
  - intros t H c J. destruct (e_given _ I t (S t H) c J) as [ro E]. exists ro. exact (G t c ro H J E).
Qed.
Lemma e_step q e q' : EI q -> etell q e = Some q' -> EI q'.
Proof.
  intros I E. destruct e as [t a|t r|t r|t c v|t c v|t u l|u l]; cbn [tell] in E.
  - destruct (qc _ q t) eqn:Q; try discriminate. destruct (forallb _ _) eqn:F; [|discriminate]. injection E as <-. constructor; cbn -[In]; try apply I.
    intros w H c J. destruct (Nat.eq_dec w t) as [->|D]; [|rewrite fupd_other in H by exact D; exact (e_given _ I w H c J)].
    rewrite fupd_same in H. injection H as ->. rewrite forallb_forall in F. apply has_spec. exact (F c J).
  - destruct (qc _ q t) as [|a|] eqn:Q; try discriminate. destruct ((_ =? _) && _) eqn:F; [|discriminate]. injection E as <-.
    apply andb_prop in F. destruct F as [F _]. apply Z.eqb_eq in F. destruct a; cbn in F |- *.
    + destruct (Z.eqb_spec (qm _ q 0) 0) as [Z0|Z0]; cbn in F |- *; subst r; cbn.
      * destruct (e_free _ I Z0) as (A & B & C). constructor; cbn -[In].
        -- exact (e_flag _ I).
        -- discriminate.
        -- discriminate.
        -- intros w H c J. destruct (Nat.eq_dec w t) as [->|D]; [rewrite fupd_same in H; discriminate|]. rewrite fupd_other in H by exact D.
           destruct (e_given _ I w H 1) as [ro X]; [left; reflexivity|]. congruence.
      * apply (e_same q); auto; [apply I|intros w H; destruct (Nat.eq_dec w t) as [->|D]; [rewrite fupd_same in H; discriminate|rewrite fupd_other in H by exact D; exact H]].
    + subst r. constructor; cbn -[In].
      * exact (e_flag _ I).
      * auto.
      * discriminate.
      * intros w H c J. destruct (Nat.eq_dec w t) as [->|D]; [rewrite fupd_same in H; discriminate|]. rewrite fupd_other in H by exact D.
        destruct (e_given _ I w H 1) as [ro X]; [left; reflexivity|]. destruct (e_given _ I t Q 1) as [ro' X']; [left; reflexivity|]. congruence.
    + apply (e_same q); auto; [apply I|intros w H; destruct (Nat.eq_dec w t) as [->|D]; [rewrite fupd_same in H; discriminate|rewrite fupd_other in H by exact D; exact H]].
  - destruct (qc _ q t) as [| |r'] eqn:Q; try discriminate. destruct (_ =? _) eqn:F; [|discriminate]. injection E as <-.
    apply (e_same q); auto; [apply I|intros w H; destruct (Nat.eq_dec w t) as [->|D]; [rewrite fupd_same in H; discriminate|rewrite fupd_other in H by exact D; exact H]].
  - destruct (qc _ q t); try discriminate. destruct (_ && _); [|discriminate]. injection E as <-. exact I.
  - destruct (qc _ q t); try discriminate. destruct (has_rw _ _) eqn:F; [|discriminate]. injection E as <-. apply has_rw_spec in F.
    assert (N : c <> 0) by (intros ->; rewrite (e_flag _ I) in F; discriminate).
    apply (e_same q); auto; [apply I|]. rewrite (proj2 (Z.eqb_neq 0 c)); [reflexivity|lia].
  - destruct (qc _ q t) eqn:Q; try discriminate. destruct (forallb _ _) eqn:F; [|discriminate]. injection E as <-. rewrite forallb_forall in F.
    apply (e_same q); auto.
    + unfold osend. rewrite (e_flag _ I). destruct (inb 0 l); reflexivity.
    + intros c. apply osend_kind.
    + intros w c ro H J X. rewrite osend_out; [exact X|]. intros K. specialize (F c K). apply has_spec in F. destruct F as [ro' F].
      assert (w = t) by congruence. subst w. congruence.
  - destruct (forallb _ _) eqn:F; [|discriminate]. injection E as <-. rewrite forallb_forall in F.
    apply (e_same q); auto.
    + unfold ogot. rewrite (e_flag _ I). destruct (inb 0 l); reflexivity.
    + intros c. apply ogot_kind.
    + intros w c ro H J X. rewrite ogot_out; [exact X|]. intros K. specialize (F c K). apply way_spec in F. destruct F as (ro' & t' & F). congruence.
Qed.
Lemma e_story h : forall q q', EI q -> estory q h = Some q' -> EI q'.
Proof.
  induction h as [|e h IH]; intros q q' I E; cbn [story] in E; [injection E as <-; exact I|]. destruct (etell q e) as [q1|] eqn:T; [|discriminate].
  exact (IH q1 q' (e_step q e q1 I T) E).
Qed.
Lemma e_right : right_alone ecall ebody egives etakes eheads em eo.
Proof.
  intros h q t a H Q. pose proof (e_story h _ _ e_start H) as I. destruct a; cbn -[In].
  - destruct (Z.eqb_spec (qm _ q 0) 0) as [Z0|Z0]; cbn -[In]; unfold oset; cbn -[In].
    + destruct (e_free _ I Z0) as (A & B & C). rewrite (e_flag _ I), A. split; [auto|].
      intros c J. cbn in J. destruct J as [<-|[<-|[<-|[]]]]; auto.
    + rewrite (e_flag _ I). split; [auto|]. intros c [].
  - unfold oset. cbn -[In]. rewrite (e_flag _ I). split; [auto|]. intros c [].
  - unfold oset. cbn -[In]. rewrite (e_flag _ I). split; [|intros c []]. split; [exact Logic.I|]. split; [|exact Logic.I].
    pose proof (e_head _ I) as K. destruct (qo _ q 1) as [|[] ? ?]; [exact Logic.I|exact Logic.I|destruct (K eq_refl)].
Qed.

(** Playing a list of actions. *)
Fixpoint eplay (f : bool) (s : hst ecall) (l : list (hact ecall)) : option (hst ecall) :=
  match l with [] => Some s | x :: r => match hstep ecall ebody egives etakes eheads f s x with Some s1 => eplay f s1 r | None => None end end.
Lemma eplay_exec f l : forall s s', eplay f s l = Some s' -> hexec ecall ebody egives etakes eheads f s l s'.
Proof.
  induction l as [|x l IH]; intros s s' H; cbn [eplay] in H; [injection H as <-; constructor|].
  destruct (hstep ecall ebody egives etakes eheads f s x) as [s1|] eqn:E; [|discriminate]. econstructor; [exact E|]. exact (IH s1 s' H).
Qed.
