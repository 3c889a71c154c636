(** Properties C20 and C21: size classes. *)
From Verif Require Import Word Res SizeClassModel SizeClassProofs.
From Coq Require Import ZArith List Bool.
Import ListNotations.
Open Scope Z_scope.

(** C20. For every chunk size from 32 (the smallest one, see the next theorem) to 2 MB, both lookups return
    the same class, the smallest one whose size is at least the requested size.  [least_class] only mentions
    the table. *)
Theorem C20_lookup_exact : forall s fuel, 32 <= s <= MACRO_BLOC -> (44 <= fuel)%nat ->
  exists i, get_free_list_fast s = Ok i /\ get_free_list_slow fuel FREE_SIZES s = Ok i /\ least_class FREE_SIZES s i.
Proof. exact lookups_exact. Qed.
Print Assumptions C20_lookup_exact.

(** C20, in terms of the size asked by the program. *)
Theorem C20_request_class : forall n fuel, 1 <= n <= MACRO_BLOC - 16 -> (44 <= fuel)%nat ->
  exists i, get_free_list_fast (calc_chunk_size n) = Ok i /\
            get_free_list_slow fuel FREE_SIZES (calc_chunk_size n) = Ok i /\
            least_class FREE_SIZES (Z.max 32 (n + 16)) i.
Proof. exact request_class. Qed.
Print Assumptions C20_request_class.

(** C20, filing of free chunks: the class does not exceed the size of the chunk, and it is the largest such. *)
Theorem C20_filing_sound : forall c, 32 <= c <= MACRO_BLOC ->
  exists j, insert_class c = Ok j /\ 0 <= j < 44 /\ nth (Z.to_nat j) FREE_SIZES 0 <= c /\
  (forall k, j < k <= 42 -> c < nth (Z.to_nat k) FREE_SIZES 0).
Proof. exact filing_sound. Qed.
Print Assumptions C20_filing_sound.

Example C20_nontrivial :
  get_free_list_fast 1500 = Ok 32 /\ get_free_list_slow 44 FREE_SIZES 1500 = Ok 32 /\
  insert_class 1500 = Ok 31 /\ 32 <= 1500 <= MACRO_BLOC.
Proof. repeat split; try (vm_compute; reflexivity); discriminate. Qed.

(** C21 is false of the code: for EVERY size above 2 MB (and below 2^63) the analytic lookup returns
    list 44, which is outside the lists [0, nb_free_lists) that the allocation search visits, so a
    chunk filed there is never found; and the binary search never ends, whatever the fuel, with both tables. *)
Theorem C21_lookup_above_2MB_refuted : forall s, MACRO_BLOC < s < S63 ->
  get_free_list_fast s = Ok 44 /\ insert_class s = Ok 44 /\ nb_free_lists FREE_SIZES <= 44 /\
  (forall fuel, get_free_list_slow fuel FREE_SIZES s = OutOfFuel) /\
  (forall fuel, get_free_list_slow fuel MMS_FREE_SIZES s = OutOfFuel).
Proof. exact lookup_big. Qed.
Print Assumptions C21_lookup_above_2MB_refuted.

Example C21_nontrivial : MACRO_BLOC < 3000000 < S63.
Proof. split; vm_compute; reflexivity. Qed.
