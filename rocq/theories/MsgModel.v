(** The messages of the library: sctk_alloc_debug.h 51-66, 104, 110-117, sctk_allocator.c 62, 2158-2188, sctk_alloc_debug.c 65, 89-163, and the callers
    (model only, no proofs).  The table of the callers of the macros is MsgTable.v.

    Simplifications: a C string is a [string] without NUL; of printf the conversions %s %d %ld %lu %llu %p %% without width (those of the messages; the dump of
    C74 also has widths); long and long long, signed and unsigned, are one type of 64 bits, printed as the mathematical value; a missing argument, one of
    another type, an unknown conversion or a '%' at the end is UB; the answer of write is an argument.  The Windows branches are left out. *)
From Verif Require Import Res.
From Coq Require Import ZArith List Bool Ascii String.
Import ListNotations.
Open Scope Z_scope.
Local Notation "x <- e ;; k" := (rbind e (fun x => k)) (at level 61, e at next level, right associativity).

(** An argument after the format (stdarg): int, a 64 bit integer, a pointer, a string, a double. *)
Inductive marg := AInt (z : Z) | ALong (z : Z) | APtr (z : Z) | AStr (s : string) | ADbl.
(** printf (called at sctk_alloc_debug.h 115-116): a digit. *)
Definition dig (d : Z) : ascii := ascii_of_nat (Z.to_nat (if d <? 10 then 48 + d else 87 + d)).
(** printf (same lines): the digits of a number, in front of [acc]. *)
Fixpoint digits (fuel : nat) (base n : Z) (acc : string) : string :=
  match fuel with
  | O => acc
  | S fuel => let acc := String (dig (n mod base)) acc in if n <? base then acc else digits fuel base (n / base) acc
  end.
(** printf (same lines): %d, %ld, %lu, %llu. *)
Definition dec (z : Z) : string := if z <? 0 then String "-" (digits 20 10 (- z) "") else digits 20 10 z "".
(** printf (same lines): %p of glibc. *)
Definition hexa (p : Z) : string := if p =? 0 then "(nil)" else ("0x" ++ digits 16 16 p "")%string.
(** printf (same lines): the text of a format with its arguments; further arguments are not used. *)
Fixpoint vfmt (f : string) (a : list marg) : res string :=
  match f with
  | EmptyString => Ok EmptyString
  | String "%" (String "%" f) => t <- vfmt f a;; Ok (String "%" t)
  | String "%" (String "s" f) => match a with AStr s :: a => t <- vfmt f a;; Ok (s ++ t)%string | _ => UB end
  | String "%" (String "d" f) => match a with AInt z :: a => t <- vfmt f a;; Ok (dec z ++ t)%string | _ => UB end
  | String "%" (String "p" f) => match a with APtr z :: a => t <- vfmt f a;; Ok (hexa z ++ t)%string | _ => UB end
  | String "%" (String "l" (String "u" f)) => match a with ALong z :: a => t <- vfmt f a;; Ok (dec z ++ t)%string | _ => UB end
  | String "%" (String "l" (String "d" f)) => match a with ALong z :: a => t <- vfmt f a;; Ok (dec z ++ t)%string | _ => UB end
  | String "%" (String "l" (String "l" (String "u" f))) => match a with ALong z :: a => t <- vfmt f a;; Ok (dec z ++ t)%string | _ => UB end
  | String "%" _ => UB
  | String c f => t <- vfmt f a;; Ok (String c t)
  end.
(** strlen, as a Z (sctk_allocator.c 2171). *)
Definition slen (s : string) : Z := Z.of_nat (String.length s).
(** sctk_alloc_debug.h 115-116: sprintf and vsprintf; the size of the buffer is not passed on; a byte after the buffer is UB. *)
Definition sprint (size : Z) (f : string) (a : list marg) : res string := t <- vfmt f a;; if slen t + 1 <=? size then Ok t else UB.
(** sctk_allocator.c 62, sctk_alloc_debug.c 65: [write] answers [w] for the length: all, less, or -1. *)
Definition emit (w : Z -> Z) (out t : string) : string := (out ++ substring 0 (Z.to_nat (Z.min (w (slen t)) (slen t))) t)%string.
(** The new line at the end of the formats (sctk_allocator.c 2167). *)
Definition NL : string := String (ascii_of_nat 10) EmptyString.
(** sctk_alloc_debug.c 118-128, 136-151, sctk_allocator.c 2162-2172, 2178-2188 with their prefixes. *)
Definition say (prefix : string) (w : Z -> Z) (f : string) (a : list marg) (out : string) : res string :=
  tmp <- sprint 4096 (prefix ++ "%s" ++ NL) [AStr f];;              (* 2167 *)
  tmp2 <- sprint 4096 tmp a;;                                       (* 2169 *)
  Ok (emit w out tmp2).                                             (* 2171 *)
(** sctk_allocator.c 2167. *)
Definition P_ERR : string := "SCTK_ALLOC_ERROR : ".
(** sctk_allocator.c 2183. *)
Definition P_WARN : string := "SCTK_ALLOC_WARNING : ".
(** sctk_alloc_debug.c 146. *)
Definition P_TRACE : string := "SCTK_ALLOC_TRACE : ".
(** sctk_allocator.c 2162-2172. *)
Definition m_perror := say P_ERR.
(** sctk_allocator.c 2178-2188. *)
Definition m_pwarning := say P_WARN.
(** sctk_alloc_debug.c 155-163. *)
Definition m_fprintf (w : Z -> Z) (f : string) (a : list marg) (out : string) : res string := tmp <- sprint 4096 f a;; Ok (emit w out tmp).
(** sctk_alloc_debug.c 89-110: the name of the trace file; the buffer has twice the 19 bytes of the format. *)
Definition trace_name (pid : Z) : res string := sprint 38 "alloc-trace-%d.txt" [AInt pid].

(** sctk_alloc_debug.h 55. *)
Definition F_WARN : string := ("Warning at %s!%d" ++ NL ++ "%s" ++ NL)%string.
(** sctk_alloc_debug.h 60-61. *)
Definition F_FATAL : string := ("Fatal error at %s!%d" ++ NL ++ "%s" ++ NL)%string.
(** sctk_alloc_debug.h 66. *)
Definition F_ASSUME : string := ("Error at %s!%d" ++ NL ++ "%s" ++ NL ++ "%s" ++ NL)%string.
(** sctk_alloc_debug.h 55, in [file] at [line]. *)
Definition m_warning (w : Z -> Z) (file : string) (line : Z) (m : string) (out : string) : res string := m_pwarning w F_WARN [AStr file; AInt line; AStr m] out.
(** sctk_alloc_debug.h 60-61, before the abort: the message and its arguments are arguments. *)
Definition m_fatal (w : Z -> Z) (file : string) (line : Z) (m : string) (a : list marg) (out : string) : res string := m_perror w F_FATAL (AStr file :: AInt line :: AStr m :: a) out.
(** sctk_alloc_debug.h 66, the condition being false, before the abort. *)
Definition m_assume (w : Z -> Z) (file : string) (line : Z) (cond m : string) (a : list marg) (out : string) : res string :=
  m_perror w F_ASSUME (AStr file :: AInt line :: AStr cond :: AStr m :: a) out.

(** sctk_alloc_numa_stat.c 403, 407. *)
Definition F_RATIO : string := ("NUMA Assertion failure at %s!%d" ++ NL ++ "Requierd %d %% of memory on node %d, but get %d %%" ++ NL)%string.
(** sctk_alloc_numa_stat.c 400-411: the report of [sctk_alloc_numa_check], the ratio being a double. *)
Definition m_ratio (w : Z -> Z) (fatal : bool) (file : string) (line minr node : Z) (out : string) : res string :=
  say (if fatal then P_ERR else P_WARN) w F_RATIO [AStr file; AInt line; AInt minr; AInt node; ADbl] out.
(** sctk_alloc_numa_stat.c 404-405, 408-409: the message of the caller. *)
Definition m_message (w : Z -> Z) (fatal : bool) (m : string) (out : string) : res string := say (if fatal then P_ERR else P_WARN) w ("%s" ++ NL) [AStr m] out.
(** sctk_allocator.c 1979-1982. *)
Definition m_no_memory (w : Z -> Z) (heap req : Z) (out : string) : res string :=
  m_perror w "Out of memory, current limitation is %lu MB of virtual memory, request is %lu MB." [ALong (heap / 1024 / 1024); ALong (req / 1024 / 1024)] out.
(** sctk_alloc_posix.c 715. *)
Definition m_dont_free (w : Z -> Z) (ptr cnt : Z) (out : string) : res string := m_pwarning w "Don't free the block %p (cnt = %d)." [APtr ptr; AInt cnt] out.
(** sctk_alloc_topology.c 436. *)
Definition m_bind (w : Z -> Z) (node size addr : Z) (out : string) : res string := m_pwarning w "numa node id : %d, size : %lu, ptr=%p" [AInt node; ALong size; APtr addr] out.
(** The calls of SCTK_PTRACE (builds with ENABLE_TRACE): sctk_alloc_posix.c 595, 608, 637, 646, 727, 857. *)
Inductive mtrace := TMal0 (chain size : Z) | TMal (p size chain : Z) | TAli0 (chain size : Z) | TAli (p boundary size chain : Z) | TFree (p chain : Z) | TReal (p old size : Z).
(** The lines of [mtrace] above. *)
Definition m_trace (w : Z -> Z) (t : mtrace) (out : string) : res string :=
  match t with
  | TMal0 c n => say P_TRACE w "//start alloc on chain %p -> %ld" [APtr c; ALong n] out
  | TMal p n c => say P_TRACE w "void * ptr%p = malloc(%ld);//chain = %p" [APtr p; ALong n; APtr c] out
  | TAli0 c n => say P_TRACE w "//start memalign on chain %p -> %ld" [APtr c; ALong n] out
  | TAli p b n c => say P_TRACE w "void * ptr%p = memalign(%ld,%ld);//chain = %p" [APtr p; ALong b; ALong n; APtr c] out
  | TFree p c => say P_TRACE w "free(ptr%p); //%p" [APtr p; APtr c] out
  | TReal p o n => say P_TRACE w "//ptr%p = realloc(ptr%p,%llu); //%p" [APtr p; APtr o; ALong n] out
  end.
