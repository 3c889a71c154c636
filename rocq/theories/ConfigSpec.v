(** What the environment variables mean. *)
From Verif Require Import Word Res ConfigModel.
From Coq Require Import ZArith String Ascii List Bool Decimal DecimalString DecimalN.
Import ListNotations.
Local Open Scope string_scope.
Open Scope Z_scope.

(** A number written in decimal (the printer of the standard library). *)
Definition dec (n : N) : string := NilZero.string_of_uint (N.to_uint n).
(** The variables, the unit of each size, and the settings as a list of numbers. *)
Definition bool_vars : list string := ["MPCALLOC_PRINT_CONFIG"; "MPCALLOC_NUMA_STRICT"; "MPCALLOC_NUMA_ROUND_ROBIN"; "MPCALLOC_NUMA_MIGRATION"].
Definition unset (e : env) (v : string) : Prop := e v = None \/ e v = Some "".
(** The value a boolean setting gets: true, false, or the default. *)
Definition bool_means (e : env) (v : string) (d b : bool) : Prop :=
  (unset e v /\ b = d) \/ (e v = Some "true" /\ b = true) \/ (e v = Some "false" /\ b = false).
(** The value a size gets: a decimal number times the unit, or the default. *)
Definition size_means (e : env) (v : string) (unit d x : Z) : Prop :=
  (unset e v /\ x = d) \/ (exists n, e v = Some (dec n) /\ x = Z.of_N n * unit).
(** The variable is unset or a plain decimal number below [bound]. *)
Definition plain (e : env) (v : string) (bound : Z) : Prop := unset e v \/ exists n, e v = Some (dec n) /\ Z.of_N n < bound.

(** ** Any text
    Blanks, an optional sign, digits, and something that does not start with a digit: the text is read as the number; without
    digits, as zero. *)
Definition blank (c : ascii) : Prop := In c (map ascii_of_N [32; 9; 10; 11; 12; 13]%N).
Definition digit (c : ascii) : Prop := In c (map ascii_of_N [48; 49; 50; 51; 52; 53; 54; 55; 56; 57]%N).
Fixpoint each (P : ascii -> Prop) (s : string) : Prop := match s with EmptyString => True | String c s' => P c /\ each P s' end.
Definition starts (P : ascii -> Prop) (s : string) : Prop := match s with EmptyString => False | String c _ => P c end.
(** The value of a sequence of digits, by powers of ten. *)
Fixpoint value (s : string) : Z :=
  match s with EmptyString => 0 | String c s' => (Z.of_N (N_of_ascii c) - 48) * 10 ^ Z.of_nat (String.length s') + value s' end.
Inductive sign : string -> Z -> Prop := no_sign : sign "" 1 | plus : sign "+" 1 | minus : sign "-" (-1).
Definition reads (s : string) (z : Z) : Prop :=
  exists w g k ds rest, s = (w ++ g ++ ds ++ rest)%string /\ each blank w /\ sign g k /\ each digit ds /\ ~ starts digit rest /\
    (g = ""%string -> ds = ""%string -> ~ starts blank rest /\ ~ starts (fun c => c = "+"%char \/ c = "-"%char) rest) /\ z = k * value ds.
(** The nearest number of type [long]. *)
Definition to_long (z : Z) : Z := Z.max (- 2 ^ 63) (Z.min (2 ^ 63 - 1) z).
(** A size in units of [u]; an [int] setting. *)
Definition size_any (e : env) (v : string) (u d x : Z) : Prop :=
  (unset e v /\ x = d) \/ (exists s z, e v = Some s /\ s <> ""%string /\ reads s z /\ x = (to_long z * u) mod 2 ^ 64).
Definition int_any (e : env) (v : string) (d x : Z) : Prop :=
  (unset e v /\ x = d) \/
  (exists s z, e v = Some s /\ s <> ""%string /\ reads s z /\ - 2 ^ 31 <= x < 2 ^ 31 /\ (x - to_long z) mod 2 ^ 32 = 0).
