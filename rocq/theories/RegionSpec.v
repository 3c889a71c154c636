(** Histories of the registry and what the properties say of them.  Nothing here mentions entries or regions' headers. *)
From Verif Require Import Word Res RegionModel.
From Coq Require Import ZArith List Bool.
Import ListNotations.
Open Scope Z_scope.

(** A registered segment: address, size, chain. *)
Record seg := mkSeg { sb : Z; ss : Z; sc : Z }.
Definition inside (x : seg) (p : Z) : Prop := sb x <= p < sb x + ss x.
Definition apart (x y : seg) : Prop := sb x + ss x <= sb y \/ sb y + ss y <= sb x.
(** A segment a chain may register: a size multiple of 2 MB, somewhere between 4 MB and 2^48 (user space), not necessarily aligned. *)
Definition seg_ok (x : seg) : Prop := 4194304 <= sb x /\ sb x + ss x <= 2 ^ 48 /\ 0 < ss x /\ ss x mod 2097152 = 0.
(** The 1 TB window an address is in. *)
Definition window (a : Z) : Z := a / 2 ^ 40.

Definition rvalid (L : list seg) (a : rop) : Prop :=
  match a with
  | RSet c b sz => seg_ok (mkSeg b sz c) /\ c <> 0 /\ forall y, In y L -> apart (mkSeg b sz c) y
  | RUnset b => exists x, In x L /\ sb x = b
  | RFind p => 0 <= p < 2 ^ 48
  | RDel a c => 0 <= a < 2 ^ 48 /\ c <> 0 /\
      (forall x, In x L -> sc x = c -> window (sb x) = window a /\ window (sb x + ss x - 1) = window a)
  end.
Definition rafter (L : list seg) (a : rop) : list seg :=
  match a with
  | RSet c b sz => mkSeg b sz c :: L
  | RUnset b => filter (fun x => negb (sb x =? b)) L
  | RFind _ => L
  | RDel _ c => filter (fun x => negb (sc x =? c)) L
  end.
Inductive rreach : rst -> list seg -> Prop :=
| rreach_init : rreach r0 []
| rreach_step s L a r s' : rreach s L -> rvalid L a -> rstep a s = Ok (r, s') -> rreach s' (rafter L a).
