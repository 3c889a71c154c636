(** C37: configuration from the environment. *)
From Verif Require Import Word Res ConfigModel ConfigSpec ConfigProofs ConfigAny.
From Coq Require Import ZArith String Ascii List Bool Lia.
Import ListNotations.
Local Open Scope string_scope.
Open Scope Z_scope.

(** C37. When the size variables are unset, empty or plain decimal numbers, each setting is the number times its unit or keeps its value,
    booleans are "true" or "false" or keep their value, and any other text in a boolean stops the program.
    Missing for the full statement: unit suffixes (not recognised, below) and sizes of 2^44 MB and more. *)
Theorem C37_settings_partial : forall e c0, 0 <= realloc_factor c0 < 2 ^ 31 -> 0 <= mm_sources c0 < 2 ^ 31 ->
  plain e "MPCALLOC_KEEP_MAX" (2 ^ 44) -> plain e "MPCALLOC_KEEP_MEM" (2 ^ 44) -> plain e "MPCALLOC_REALLOC_THREASHOLD" (2 ^ 44) ->
  plain e "MPCALLOC_REALLOC_FACTOR" (2 ^ 31) -> plain e "MPCALLOC_MM_SOURCES" (2 ^ 31) ->
  (exists v s, In v bool_vars /\ e v = Some s /\ s <> "" /\ s <> "true" /\ s <> "false" /\ config_init e c0 = Abort) \/
  (exists c, config_init e c0 = Ok c /\
    bool_means e "MPCALLOC_PRINT_CONFIG" (print_config c0) (print_config c) /\ bool_means e "MPCALLOC_NUMA_STRICT" (strict c0) (strict c) /\
    bool_means e "MPCALLOC_NUMA_ROUND_ROBIN" (numa_round_robin c0) (numa_round_robin c) /\ bool_means e "MPCALLOC_NUMA_MIGRATION" (numa_migration c0) (numa_migration c) /\
    size_means e "MPCALLOC_KEEP_MAX" (2 ^ 20) (keep_max c0) (keep_max c) /\
    size_means e "MPCALLOC_KEEP_MEM" (2 ^ 20) (keep_mem c0) (keep_mem c) /\
    size_means e "MPCALLOC_REALLOC_THREASHOLD" (2 ^ 20) (realloc_threashold c0) (realloc_threashold c) /\
    size_means e "MPCALLOC_REALLOC_FACTOR" 1 (realloc_factor c0) (realloc_factor c) /\
    size_means e "MPCALLOC_MM_SOURCES" 1 (mm_sources c0) (mm_sources c)).
Proof. exact config_ok. Qed.
Print Assumptions C37_settings_partial.
(** C37. The same for every text whatsoever in the variables: a size is the number at the front of the text (blanks, sign, digits; 0 without digits),
    limited to the range of [long], times its unit, modulo 2^64; an [int] setting is that number reduced to 32 bits. *)
Theorem C37_every_text : forall e c0, 0 <= realloc_factor c0 < 2 ^ 31 -> 0 <= mm_sources c0 < 2 ^ 31 ->
  (exists v s, In v bool_vars /\ e v = Some s /\ s <> "" /\ s <> "true" /\ s <> "false" /\ config_init e c0 = Abort) \/
  (exists c, config_init e c0 = Ok c /\
    bool_means e "MPCALLOC_PRINT_CONFIG" (print_config c0) (print_config c) /\ bool_means e "MPCALLOC_NUMA_STRICT" (strict c0) (strict c) /\
    bool_means e "MPCALLOC_NUMA_ROUND_ROBIN" (numa_round_robin c0) (numa_round_robin c) /\ bool_means e "MPCALLOC_NUMA_MIGRATION" (numa_migration c0) (numa_migration c) /\
    size_any e "MPCALLOC_KEEP_MAX" (2 ^ 20) (keep_max c0) (keep_max c) /\
    size_any e "MPCALLOC_KEEP_MEM" (2 ^ 20) (keep_mem c0) (keep_mem c) /\
    size_any e "MPCALLOC_REALLOC_THREASHOLD" (2 ^ 20) (realloc_threashold c0) (realloc_threashold c) /\
    int_any e "MPCALLOC_REALLOC_FACTOR" (realloc_factor c0) (realloc_factor c) /\
    int_any e "MPCALLOC_MM_SOURCES" (mm_sources c0) (mm_sources c)).
Proof. exact config_any. Qed.
Print Assumptions C37_every_text.
(** C37. Every text has exactly one reading. *)
Theorem C37_one_reading : forall s, exists z, reads s z /\ forall z', reads s z' -> z' = z.
Proof. exact reads_one. Qed.
Print Assumptions C37_one_reading.
Example C37_every_text_nontrivial :
  reads " -12K" (-12) /\ reads "G7" 0 /\
  let e := fun v => if String.eqb v "MPCALLOC_KEEP_MEM" then Some "99999999999999999999" else if String.eqb v "MPCALLOC_REALLOC_FACTOR" then Some " -12K" else None in
  config_init e defaults = Ok (mkConf false false false false 8388608 (2 ^ 64 - 2 ^ 20) 52428800 (-12) 4).
Proof.
  split; [|split].
  - exists " ", "-", (-1), "12", "K". split; [reflexivity|]. split; [vm_compute; tauto|]. split; [exact minus|]. split; [vm_compute; tauto|].
    split; [vm_compute; intuition discriminate|]. split; [discriminate|reflexivity].
  - exists "", "", 1, "", "G7". split; [reflexivity|]. split; [exact Logic.I|]. split; [exact no_sign|]. split; [exact Logic.I|].
    split; [vm_compute; intuition discriminate|]. split; [|reflexivity]. intros _ _. split; vm_compute; intuition discriminate.
  - vm_compute. reflexivity.
Qed.
(** C37. The values kept are the documented defaults. *)
Theorem C37_defaults : exists c, config_init (fun _ => None) defaults = Ok c /\ print_config c = false /\ strict c = false /\ numa_round_robin c = false /\ numa_migration c = false /\
  keep_max c = 8 * 2 ^ 20 /\ keep_mem c = 512 * 2 ^ 20 /\ realloc_threashold c = 50 * 2 ^ 20 /\ realloc_factor c = 2 /\ mm_sources c = 4.
Proof. exact defaults_ok. Qed.
Print Assumptions C37_defaults.

Example C37_nontrivial :
  let e := fun v => if String.eqb v "MPCALLOC_KEEP_MEM" then Some (dec 1024) else if String.eqb v "MPCALLOC_NUMA_STRICT" then Some "true" else None in
  dec 1024 = "1024" /\ plain e "MPCALLOC_KEEP_MEM" (2 ^ 44) /\
  config_init e defaults = Ok (mkConf false true false false 8388608 1073741824 52428800 2 4).
Proof.
  split; [vm_compute; reflexivity|]. split; [|vm_compute; reflexivity]. right. exists 1024%N. split; [reflexivity|vm_compute; reflexivity].
Qed.

(** C37. Suffixes are ignored: whatever follows the number, it is taken in MB. *)
Theorem C37_suffix_refuted : forall e v d u n rest, e v = Some (dec n ++ rest) -> (forall c s, rest = String c s -> is_digit c = false) ->
  Z.of_N n < 2 ^ 63 -> 0 <= u -> Z.of_N n * u < 2 ^ 64 -> get_size e v d u = Z.of_N n * u.
Proof. exact get_size_dec. Qed.
Print Assumptions C37_suffix_refuted.
(** "2G" and "2K" both give 2 MB; "-1" gives a size close to 2^64; text gives 0. *)
Example C37_examples :
  get_size (fun _ => Some "2G") "MPCALLOC_KEEP_MAX" 0 MB = 2097152 /\ get_size (fun _ => Some "2K") "MPCALLOC_KEEP_MAX" 0 MB = 2097152 /\
  get_size (fun _ => Some "-1") "MPCALLOC_KEEP_MAX" 0 MB = 18446744073708503040 /\ get_size (fun _ => Some "all") "MPCALLOC_KEEP_MAX" 5 MB = 0.
Proof. repeat split; vm_compute; reflexivity. Qed.
