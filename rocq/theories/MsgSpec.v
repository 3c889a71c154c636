(** What a message of the library should be: the text of the caller with its values, whole, and nothing written outside of the buffers. *)
From Verif Require Import Res MsgModel MsgTable.
From Coq Require Import ZArith List Bool Ascii String.
Import ListNotations.
Open Scope Z_scope.

(** The value of a digit, and of a text read as a number. *)
Definition dval (c : ascii) : option Z :=
  let n := Z.of_nat (nat_of_ascii c) in if (48 <=? n) && (n <=? 57) then Some (n - 48) else if (97 <=? n) && (n <=? 102) then Some (n - 87) else None.
Fixpoint reads (base acc : Z) (s : string) : option Z :=
  match s with
  | EmptyString => Some acc
  | String c s => match dval c with Some d => if d <? base then reads base (base * acc + d) s else None | None => None end
  end.
(** [s] is the number [z] in decimal, [p] in hexadecimal. *)
Definition is_dec (z : Z) (s : string) : Prop := s <> EmptyString /\ (0 <= z -> reads 10 0 s = Some z) /\ (z < 0 -> exists r, s = String "-" r /\ r <> EmptyString /\ reads 10 0 r = Some (- z)).
Definition is_hex (p : Z) (s : string) : Prop := (p = 0 /\ s = "(nil)"%string) \/ (p <> 0 /\ exists r, s = ("0x" ++ r)%string /\ r <> EmptyString /\ reads 16 0 r = Some p).
(** The types of C on this machine. *)
Definition int_ok (z : Z) : Prop := - 2 ^ 31 <= z < 2 ^ 31.
Definition long_ok (z : Z) : Prop := - 2 ^ 63 <= z < 2 ^ 64.
Definition ptr_ok (z : Z) : Prop := 0 <= z < 2 ^ 64.
(** [says f a t]: the text [t] is the format [f] with the values [a], each of the type the format asks for. *)
Inductive says : string -> list marg -> string -> Prop :=
| says_end a : says EmptyString a EmptyString
| says_chr c f a t : c <> "%"%char -> says f a t -> says (String c f) a (String c t)
| says_pct f a t : says f a t -> says ("%%" ++ f) a ("%" ++ t)
| says_str s f a t : says f a t -> says ("%s" ++ f) (AStr s :: a) (s ++ t)
| says_int z s f a t : int_ok z -> is_dec z s -> says f a t -> says ("%d" ++ f) (AInt z :: a) (s ++ t)
| says_ptr z s f a t : ptr_ok z -> is_hex z s -> says f a t -> says ("%p" ++ f) (APtr z :: a) (s ++ t)
| says_long k z s f a t : In k ["%ld"; "%lu"; "%llu"]%string -> long_ok z -> is_dec z s -> says f a t -> says (k ++ f) (ALong z :: a) (s ++ t).
(** The arguments are of the types that the format asks for. *)
Inductive typed : string -> list marg -> Prop :=
| ty_end a : typed EmptyString a
| ty_chr c f a : c <> "%"%char -> typed f a -> typed (String c f) a
| ty_pct f a : typed f a -> typed ("%%" ++ f) a
| ty_str s f a : typed f a -> typed ("%s" ++ f) (AStr s :: a)
| ty_int z f a : int_ok z -> typed f a -> typed ("%d" ++ f) (AInt z :: a)
| ty_ptr z f a : ptr_ok z -> typed f a -> typed ("%p" ++ f) (APtr z :: a)
| ty_long k z f a : In k ["%ld"; "%lu"; "%llu"]%string -> long_ok z -> typed f a -> typed (k ++ f) (ALong z :: a).
(** write takes everything. *)
Definition all_written (w : Z -> Z) : Prop := forall n, 0 <= n -> w n = n.
(** A text without conversions. *)
Fixpoint plain (s : string) : bool := match s with EmptyString => true | String c s => negb (Ascii.eqb c "%") && plain s end.
(** The message that the caller of a macro wants on the terminal; [m]: the message with its values, [d]: the number of the line. *)
Definition wanted (dir : string) (s : msite) (d m : string) : string :=
  (match ms_kind s with KWarn => P_WARN ++ "Warning at " | KFatal => P_ERR ++ "Fatal error at " | KAssume => P_ERR ++ "Error at " end
   ++ dir ++ ms_file s ++ "!" ++ d ++ NL ++ match ms_kind s with KAssume => ms_cond s ++ NL | _ => "" end ++ m ++ NL ++ NL)%string.
(** The number of values a format prints. *)
Fixpoint convs (f : string) : nat :=
  match f with
  | EmptyString => O
  | String "%" (String "%" f) => convs f
  | String "%" f => S (convs f)
  | String _ f => convs f
  end.
(** The values of a traced call. *)
Definition trace_values (t : mtrace) : list marg :=
  match t with
  | TMal0 c n => [APtr c; ALong n] | TMal p n c => [APtr p; ALong n; APtr c] | TAli0 c n => [APtr c; ALong n] | TAli p b n c => [APtr p; ALong b; ALong n; APtr c]
  | TFree p c => [APtr p; APtr c] | TReal p o n => [APtr p; APtr o; ALong n]
  end.
(** The values are pointers and sizes; realloc left out. *)
Definition trace_ok (t : mtrace) : Prop :=
  match t with
  | TMal0 c n => ptr_ok c /\ long_ok n | TMal p n c => ptr_ok p /\ long_ok n /\ ptr_ok c | TAli0 c n => ptr_ok c /\ long_ok n
  | TAli p b n c => ptr_ok p /\ long_ok b /\ long_ok n /\ ptr_ok c | TFree p c => ptr_ok p /\ ptr_ok c | TReal _ _ _ => False
  end.
