(** A call either runs out of fuel or gives the same result with more fuel. *)
From Verif Require Import Word Res Mem SizeClassModel ChainModel ChainSpec.
From Coq Require Import ZArith List Bool Lia.
Import ListNotations.
Open Scope Z_scope.

Definition le_m {A} (x y : M A) : Prop := forall s, x s = OutOfFuel \/ y s = x s.

Lemma le_refl {A} (x : M A) : le_m x x.
Proof. intros s. right. reflexivity. Qed.
Lemma le_bind {A B} (x y : M A) (f h : A -> M B) : le_m x y -> (forall a, le_m (f a) (h a)) -> le_m (bind x f) (bind y h).
Proof.
  intros H1 H2 s. unfold bind. destruct (H1 s) as [E|E]; [left; rewrite E; reflexivity|]. rewrite E.
  destruct (x s) as [[a s']| | |]; cbn; auto. apply H2.
Qed.
Lemma le_bind_r {A B} (x : M A) (f h : A -> M B) : (forall a, le_m (f a) (h a)) -> le_m (bind x f) (bind x h).
Proof. intros H. apply le_bind; [apply le_refl|exact H]. Qed.

Lemma le_find_adapted_loop f1 : forall f2 l c z, (f1 <= f2)%nat -> le_m (find_adapted_loop f1 l c z) (find_adapted_loop f2 l c z).
Proof.
  induction f1 as [|f1 IH]; intros f2 l c z H; [intros s; left; reflexivity|]. destruct f2 as [|f2]; [lia|]. cbn [find_adapted_loop].
  destruct ((c =? 0) || (c =? l)); [apply le_refl|]. apply le_bind_r. intros sz. destruct (sz <? z); [|apply le_refl].
  apply le_bind_r. intros n. apply IH. lia.
Qed.
Lemma le_find_free_chunk f1 f2 g n : (f1 <= f2)%nat -> le_m (find_free_chunk f1 g n) (find_free_chunk f2 g n).
Proof.
  intros H. unfold find_free_chunk. cbv zeta. apply le_bind_r. intros i. apply le_bind_r. intros l.
  assert (FA : forall l z, le_m (find_adapted f1 l z) (find_adapted f2 l z)).
  { intros l0 z. unfold find_adapted. apply le_bind_r. intros f. apply le_bind; [apply le_find_adapted_loop; exact H|]. intros a. apply le_refl. }
  apply le_bind; [destruct (l =? 0); [apply le_refl|apply FA]|]. intros r.
  apply le_bind; [destruct ((r =? 0) && _); [apply FA|apply le_refl]|]. intros r'. apply le_refl.
Qed.
Lemma le_merge_left f1 : forall f2 g a c, (f1 <= f2)%nat -> le_m (merge_left f1 g a c) (merge_left f2 g a c).
Proof.
  induction f1 as [|f1 IH]; intros f2 g a c H; [intros s; left; reflexivity|]. destruct f2 as [|f2]; [lia|]. cbn [merge_left].
  destruct (c =? 0); [apply le_refl|]. apply le_bind_r. intros x. destruct (x =? S_FREE); [|apply le_refl].
  do 3 (apply le_bind_r; intros ?). apply IH. lia.
Qed.
Lemma le_merge_right f1 : forall f2 g a c, (f1 <= f2)%nat -> le_m (merge_right f1 g a c) (merge_right f2 g a c).
Proof.
  induction f1 as [|f1 IH]; intros f2 g a c H; [intros s; left; reflexivity|]. destruct f2 as [|f2]; [lia|]. cbn [merge_right].
  destruct (c =? 0); [apply le_refl|]. apply le_bind_r. intros x. destruct (x =? S_FREE); [|apply le_refl].
  do 3 (apply le_bind_r; intros ?). apply IH. lia.
Qed.
Lemma le_merge_chunk f1 f2 g v : (f1 <= f2)%nat -> le_m (merge_chunk f1 g v) (merge_chunk f2 g v).
Proof.
  intros H. unfold merge_chunk. do 3 (apply le_bind_r; intros ?). apply le_bind; [apply le_merge_left; exact H|]. intros x.
  apply le_bind_r; intros ?. apply le_bind; [apply le_merge_right; exact H|]. intros y. apply le_refl.
Qed.
Lemma le_alloc f1 f2 g gr d n : (f1 <= f2)%nat -> le_m (alloc_align f1 g gr d n) (alloc_align f2 g gr d n).
Proof.
  intros H. unfold alloc_align. destruct (n =? 0); [apply le_refl|]. cbv zeta. destruct (is_huge g _); [apply le_refl|].
  apply le_bind; [apply le_find_free_chunk; exact H|]. intros c. apply le_bind; [|intros c'; apply le_refl].
  destruct (c =? 0); [|apply le_refl]. apply le_bind_r. intros ok. destruct ok; [apply le_find_free_chunk; exact H|apply le_refl].
Qed.
Lemma le_free f1 f2 g p : (f1 <= f2)%nat -> le_m (chain_free f1 g p) (chain_free f2 g p).
Proof.
  intros H. unfold chain_free. destruct (p =? 0); [apply le_refl|]. apply le_bind_r. intros v. destruct (v =? 0); [apply le_refl|].
  do 3 (apply le_bind_r; intros ?). destruct (is_huge g _); [apply le_refl|]. do 2 (apply le_bind_r; intros ?).
  apply le_bind; [destruct (cmerge g); [apply le_merge_chunk; exact H|apply le_refl]|]. intros x. apply le_refl.
Qed.
Lemma le_realloc f1 f2 g gr h p n : (f1 <= f2)%nat -> le_m (chain_realloc f1 g gr h p n) (chain_realloc f2 g gr h p n).
Proof.
  intros H. unfold chain_realloc. destruct ((p =? 0) && (n =? 0)); [apply le_refl|].
  destruct (p =? 0); [apply le_alloc; exact H|].
  destruct (n =? 0); [apply le_bind; [apply le_free; exact H|intros ?; apply le_refl]|].
  apply le_bind_r. intros v. destruct (v =? 0); [apply le_refl|]. do 2 (apply le_bind_r; intros ?). cbv zeta.
  apply le_bind_r. intros keep. destruct keep; [apply le_refl|].
  apply le_bind; [apply le_alloc; exact H|]. intros r. apply le_bind_r. intros ?. apply le_bind; [apply le_free; exact H|intros ?; apply le_refl].
Qed.
Lemma le_purge_loop f1 f2 g q1 : forall q2 e, (f1 <= f2)%nat -> (q1 <= q2)%nat -> le_m (purge_loop f1 q1 g e) (purge_loop f2 q2 g e).
Proof.
  induction q1 as [|q1 IH]; intros q2 e H Hq; [intros s; left; reflexivity|]. destruct q2 as [|q2]; [lia|]. cbn [purge_loop].
  destruct (e =? 0); [apply le_refl|]. do 2 (apply le_bind_r; intros ?). apply le_bind; [apply le_free; exact H|]. intros _. apply IH; lia.
Qed.
Lemma exec_fuel f1 f2 g c : (f1 <= f2)%nat -> le_m (exec f1 g c) (exec f2 g c).
Proof.
  intros H. destruct c; cbn [exec].
  - apply le_alloc; exact H.
  - apply le_bind; [apply le_free; exact H|intros ?; apply le_refl].
  - apply le_realloc; exact H.
  - apply le_refl.
  - apply le_refl.
  - apply le_refl.
  - apply le_bind; [|intros ?; apply le_refl]. unfold purge_rfq. apply le_bind_r. intros s. destruct (rqh s =? 0); [apply le_refl|].
    apply le_bind_r. intros ?. apply le_purge_loop; exact H.
  - apply le_refl.
Qed.
