(** C69: the regions of the registry. *)
From Verif Require Import Word Res RegionModel RegionSpec RegionProofs RegDelModel RegDelSpec RegDelProofs.
From Coq Require Import ZArith List Bool Lia.
Import ListNotations.
Open Scope Z_scope.

(** Creating and removing regions at any moment does not change what the lookups answer. *)
Theorem C69_lookup : forall s L p, rreach2 s L -> 0 <= p < 2 ^ 48 -> exists r s', rstep2 (R1 (RFind p)) s = Ok (r, s') /\
  ((exists x, In x L /\ inside x p /\ r = sb x) \/ (r = 0 /\ forall x, In x L -> ~ inside x p)).
Proof. exact lookup2. Qed.
Print Assumptions C69_lookup.

(** The calls return. *)
Theorem C69_calls_return : forall s L a, rreach2 s L -> rvalid2 L a -> exists r s', rstep2 a s = Ok (r, s') /\ rreach2 s' (rafter2 L a).
Proof. exact calls2. Qed.
Print Assumptions C69_calls_return.

(** A region is removed exactly when no registered segment uses it; the other regions stay as they are. *)
Theorem C69_removed : forall s L a b s' r, rreach2 s L -> 0 <= a < 2 ^ 48 -> 0 <= b < 2 ^ 48 -> rstep2 (RDelReg a) s = Ok (r, s') ->
  exists v, rstep2 (RExist b) s' = Ok (v, s') /\
    (window b = window a -> (v = 1 /\ uses L a) \/ (v = 0 /\ ~ uses L a)) /\ (window b <> window a -> rstep2 (RExist b) s = Ok (v, s)).
Proof. exact exists_iff. Qed.
Print Assumptions C69_removed.

(** After the removal of all regions none exists and no address is found. *)
Theorem C69_all_removed : forall s L r s', rreach2 s L -> rstep2 RDelAll s = Ok (r, s') -> forall a, 0 <= a < 2 ^ 48 ->
  rstep2 (RExist a) s' = Ok (0, s') /\ exists s'', rstep2 (R1 (RFind a)) s' = Ok (0, s'').
Proof. exact all_gone. Qed.
Print Assumptions C69_all_removed.

Lemma ex_reach : exists s, rreach2 s [mkSeg 1099509530624 4194304 7].
Proof.
  assert (V : rvalid [] (RSet 7 1099509530624 4194304)) by (split; [unfold seg_ok; cbn; split; [discriminate|split; [discriminate|split; reflexivity]]|split; [discriminate|intros y []]]).
  destruct (calls2 _ _ (R1 (RSet 7 1099509530624 4194304)) rreach2_init V) as (r & s & _ & R). exists s. exact R.
Qed.
(** A segment on both sides of a 1 TB limit: both regions are in use. *)
Example C69_case : exists s, rreach2 s [mkSeg 1099509530624 4194304 7] /\ uses [mkSeg 1099509530624 4194304 7] 1099509530624 /\ uses [mkSeg 1099509530624 4194304 7] 1099511627776 /\
  ~ uses [mkSeg 1099509530624 4194304 7] 2199023255552 /\ rvalid2 [mkSeg 1099509530624 4194304 7] (RDelReg 2199023255552).
Proof.
  destruct ex_reach as (s & R). exists s. split; [exact R|]. unfold uses, window. split; [eexists _, 0; split; [left; reflexivity|cbn; split; [lia|reflexivity]]|].
  split; [eexists _, 1; split; [left; reflexivity|cbn; split; [lia|reflexivity]]|]. split; [|split; [discriminate|reflexivity]].
  intros (x & k & [<-|[]] & K & E). cbn [sb ss] in K, E. change (4194304 / 2097152) with 2 in K. change (2199023255552 / 2 ^ 40) with 2 in E. change (2 ^ 40) with 1099511627776 in E. lia.
Qed.

(** The end of a default memory source (2114-2140) removes the region of its heap, and with it the segments that other chains have registered in
    the same 1 TB: the addresses in them are no longer found. *)
Theorem C69_cleanup_refuted : forall s L x base size fuel, rreach s L -> In x L ->
  0 <= base -> 0 < size -> base + size <= 2 ^ 48 -> window (base + size - 1) = window base -> (2 <= fuel)%nat ->
  window (sb x) = window base -> exists s' s'' p, clean_loop fuel base (base + size) s = Ok s' /\ inside x p /\ rstep (RFind p) s' = Ok (0, s'').
Proof. exact cleanup_forgets. Qed.
Print Assumptions C69_cleanup_refuted.

(** Such a segment, below a heap of 2 MB at 1 TB - 2 MB. *)
Example C69_cleanup_case : exists s L x, rreach s L /\ In x L /\ window (sb x) = window 1099509530624 /\ window (1099509530624 + 2097152 - 1) = window 1099509530624 /\ sb x + ss x <= 1099509530624.
Proof.
  assert (V : rvalid [] (RSet 7 4194304 2097152)) by (split; [unfold seg_ok; cbn; split; [discriminate|split; [discriminate|split; reflexivity]]|split; [discriminate|intros y []]]).
  destruct (registry_calls _ _ (RSet 7 4194304 2097152) rreach_init V) as (r & s & E & R). exists s, [mkSeg 4194304 2097152 7], (mkSeg 4194304 2097152 7). split; [exact R|].
  split; [left; reflexivity|]. split; [reflexivity|]. split; [reflexivity|discriminate].
Qed.
