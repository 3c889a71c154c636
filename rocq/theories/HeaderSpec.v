(** What the header fields are: bits of one little-endian number.  Independent of the accessors. *)
From Verif Require Import Mem HeaderModel.
From Coq Require Import ZArith.
Open Scope Z_scope.

(** First bit and width of each field in the 128 bits of a header, and in the 64 bits of a padded header. *)
Definition f_off (f : field) : Z := match f with FSize => 0 | FAddr => 56 | FPrev => 64 | FType => 120 | FState => 122 | FMagic => 123 end.
Definition f_wid (f : field) : Z := match f with FSize => 56 | FAddr => 8 | FPrev => 56 | FType => 2 | FState => 1 | FMagic => 5 end.
Definition f_val (m : mem) (a : Z) (f : field) : Z := (ld m a 16 / 2 ^ f_off f) mod 2 ^ f_wid f.
Definition p_off (f : pfield) : Z := match f with PPad => 0 | PType => 56 | PState => 58 | PMagic => 59 end.
Definition p_wid (f : pfield) : Z := match f with PPad => 56 | PType => 2 | PState => 1 | PMagic => 5 end.
Definition p_val (m : mem) (a : Z) (f : pfield) : Z := (ld m a 8 / 2 ^ p_off f) mod 2 ^ p_wid f.
