(** C29, C45: the registry of segments. *)
From Verif Require Import Word Res RegionModel RegionSpec RegionProofs.
From Coq Require Import ZArith List Bool Lia.
Import ListNotations.
Open Scope Z_scope.

(** C29. After any history, a lookup returns the segment that contains the address, or NULL when there is none. *)
Theorem C29_lookup_exact : forall s L p, rreach s L -> 0 <= p < 2 ^ 48 -> exists r s', rstep (RFind p) s = Ok (r, s') /\
  ((exists x, In x L /\ inside x p /\ r = sb x) \/ (r = 0 /\ forall x, In x L -> ~ inside x p)).
Proof. exact lookup_exact. Qed.
Print Assumptions C29_lookup_exact.

(** C29. The header of the segment found, still mapped, names its chain. *)
Theorem C29_owner : forall s L x p r s', rreach s L -> In x L -> inside x p -> 0 <= p < 2 ^ 48 -> rstep (RFind p) s = Ok (r, s') ->
  r = sb x /\ hdr s' r = Some (ss x, sc x).
Proof. exact lookup_owner. Qed.
Print Assumptions C29_owner.

(** C29. Registering, unregistering, lookups and destroying a chain return: no access outside the tables or to the header of a
    segment given back, no failed assertion, no endless loop. *)
Theorem C29_calls_return : forall s L a, rreach s L -> rvalid L a -> exists r s', rstep a s = Ok (r, s') /\ rreach s' (rafter L a).
Proof. exact registry_calls. Qed.
Print Assumptions C29_calls_return.

(** Two adjacent segments that are not aligned on 2 MB; one is given back and the place is used again by another chain. *)
Definition l29 : list rop :=
  [RSet 7 5242880 4194304; RSet 8 9437184 2097152; RFind 9437000; RFind 9437184; RFind 10485760; RFind 5242879; RUnset 5242880; RFind 6000000;
   RSet 9 7340032 2097152; RFind 9437000; RFind 7340031].
Lemma l29_valid : rvalids [] l29.
Proof.
  cbn. unfold seg_ok, apart. cbn. repeat split; try discriminate; try lia; try (exists (mkSeg 5242880 4194304 7); cbn; tauto).
  - intros y [<-|[]]. cbn. lia.
  - intros y [<-|[]]. cbn. lia.
Qed.
Example C29_nontrivial : rreach (rend l29) [mkSeg 7340032 2097152 9; mkSeg 9437184 2097152 8] /\
  rres l29 = Some [0; 0; 5242880; 9437184; 9437184; 0; 0; 0; 0; 7340032; 0].
Proof. split; [apply (rend_reach l29 l29_valid); vm_compute; reflexivity|vm_compute; reflexivity]. Qed.

(** Outside the domain of C29, segments smaller than 2 MB in the same slot stop the program. *)
Example C29_small_segments_abort : rstep (RSet 7 5242880 1048576) (rend [RSet 7 4194304 1048576]) = Abort.
Proof. vm_compute. reflexivity. Qed.
(** And an address below a segment that starts within the first 2 MB is taken to be inside. *)
Example C29_low_address_wrong : rres [RSet 7 1048576 2097152; RFind 4096] = Some [0; 1048576].
Proof. vm_compute. reflexivity. Qed.

(** C45. Destroying a chain whose segments all lie in the 1 TB window of its base address removes them from the registry.
    Missing for the full statement: segments in other windows (false, see below). *)
Theorem C45_destroy_unregisters_partial : forall s L a c r s' x p, rreach s L -> rvalid L (RDel a c) -> rstep (RDel a c) s = Ok (r, s') ->
  In x L -> sc x = c -> inside x p -> exists s'', rstep (RFind p) s' = Ok (0, s'').
Proof. exact destroy_forgets. Qed.
Print Assumptions C45_destroy_unregisters_partial.

(** C45. A segment of the chain in another window stays registered: an address in it leads to the destroyed chain. *)
Theorem C45_other_window_refuted : exists s s' s'', rreach s [mkSeg 1099513724928 2097152 7; mkSeg 1099509530624 2097152 7] /\
  rstep (RDel 1099509530624 7) s = Ok (0, s') /\ rstep (RFind 1099513725000) s' = Ok (1099513724928, s'') /\
  hdr s'' 1099513724928 = Some (2097152, 7).
Proof.
  set (l := [RSet 7 1099509530624 2097152; RSet 7 1099513724928 2097152]).
  exists (rend l), (rend (l ++ [RDel 1099509530624 7])), (rend ((l ++ [RDel 1099509530624 7]) ++ [RFind 1099513725000])).
  split; [|split; [|split]].
  - apply (rend_reach l); [|vm_compute; reflexivity]. unfold l. cbn. unfold seg_ok, apart. cbn. repeat split; try discriminate; try lia.
    intros y [<-|[]]. cbn. lia.
  - apply (rend_step l _ [0; 0]). vm_compute. reflexivity.
  - apply (rend_step (l ++ [RDel 1099509530624 7]) _ [0; 0; 0]). vm_compute. reflexivity.
  - vm_compute. reflexivity.
Qed.
Print Assumptions C45_other_window_refuted.
