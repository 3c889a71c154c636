(** Configuration from the environment, sctk_alloc_config.c (model only, no proofs). *)
From Verif Require Import Word Res.
From Coq Require Import ZArith String Ascii List Bool.
Import ListNotations.
Local Open Scope string_scope.
Open Scope Z_scope.

(** [atol] of the C library: blanks, an optional sign, then digits up to the first other character; clamped to [long] as glibc's
    strtol does. The number of a character (no code of its own in /repo). *)
Definition code (c : ascii) : Z := Z.of_N (N_of_ascii c).
(** isspace of the C library, in atol (called at sctk_alloc_config.c 147). *)
Definition is_space (c : ascii) : bool := (code c =? 32) || ((9 <=? code c) && (code c <=? 13)).
(** isdigit of the C library, in atol (called at sctk_alloc_config.c 147). *)
Definition is_digit (c : ascii) : bool := (48 <=? code c) && (code c <=? 57).
(** First part of atol (called at sctk_alloc_config.c 147). *)
Fixpoint skip_spaces (s : string) : string := match s with String c s' => if is_space c then skip_spaces s' else s | EmptyString => s end.
(** Last part of atol (called at sctk_alloc_config.c 147). *)
Fixpoint digits (acc : Z) (s : string) : Z :=
  match s with String c s' => if is_digit c then digits (10 * acc + (code c - 48)) s' else acc | EmptyString => acc end.
(** What glibc returns for a number outside of the type long (atol called at sctk_alloc_config.c 147). *)
Definition clamp (v : Z) : Z := if v <? - S63 then - S63 else if S63 - 1 <? v then S63 - 1 else v.
(** The function called at sctk_alloc_config.c 147. *)
Definition atol (s : string) : Z :=
  match skip_spaces s with
  | String c s' => if code c =? 45 then clamp (- digits 0 s') else if code c =? 43 then clamp (digits 0 s') else clamp (digits 0 (String c s'))
  | EmptyString => 0
  end.

(** The environment: value of a variable, None when it is not set. (getenv, called at sctk_alloc_config.c 113, 141.) *)
Definition env := string -> option string.

(** 105-128 [sctk_alloc_get_bool_from_env]; sctk_fatal stops the program. *)
Definition get_bool (e : env) (name : string) (d : bool) : res bool :=
  match e name with
  | None => Ok d
  | Some EmptyString => Ok d
  | Some s => if String.eqb s "true" then Ok true else if String.eqb s "false" then Ok false else Abort
  end.
(** 131-148 [sctk_alloc_get_size_from_env]: [atol(buffer) * factor], a [long] times a [size_t]. *)
Definition get_size (e : env) (name : string) (d factor : Z) : Z :=
  match e name with
  | None => d
  | Some EmptyString => d
  | Some s => w64 (atol s * factor)
  end.
(** Conversion of a [size_t] to [int] (sctk_alloc_config.h: realloc_factor and mm_sources). *)
Definition to_int (x : Z) : Z := let v := x mod 4294967296 in if v <? 2147483648 then v else v - 4294967296.

(** sctk_alloc_config.h 36-63, the fields the environment can set. *)
Record config := mkConf { print_config : bool; strict : bool; numa_round_robin : bool; numa_migration : bool;
  keep_max : Z; keep_mem : Z; realloc_threashold : Z; realloc_factor : Z; mm_sources : Z }.
(** 74-102 [sctk_alloc_config_init_static_defaults]. *)
Definition defaults : config := mkConf false false false false (8 * 1024 * 1024) (512 * 1024 * 1024) (50 * 1024 * 1024) 2 4.
(** 156-169 [sctk_alloc_config_init]. *)
Definition MB : Z := 1024 * 1024.
(** sctk_alloc_config.c 156-169. *)
Definition config_init (e : env) (c : config) : res config :=
  rbind (get_bool e "MPCALLOC_PRINT_CONFIG" (print_config c)) (fun pc =>
  rbind (get_bool e "MPCALLOC_NUMA_STRICT" (strict c)) (fun st =>
  rbind (get_bool e "MPCALLOC_NUMA_ROUND_ROBIN" (numa_round_robin c)) (fun rr =>
  rbind (get_bool e "MPCALLOC_NUMA_MIGRATION" (numa_migration c)) (fun mg =>
  Ok (mkConf pc st rr mg
        (get_size e "MPCALLOC_KEEP_MAX" (keep_max c) MB)
        (get_size e "MPCALLOC_KEEP_MEM" (keep_mem c) MB)
        (get_size e "MPCALLOC_REALLOC_THREASHOLD" (realloc_threashold c) MB)
        (to_int (get_size e "MPCALLOC_REALLOC_FACTOR" (w64 (realloc_factor c)) 1))
        (to_int (get_size e "MPCALLOC_MM_SOURCES" (w64 (mm_sources c)) 1))))))).
