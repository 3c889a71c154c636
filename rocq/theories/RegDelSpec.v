(** Histories with whole regions.  Nothing here mentions entries or regions' headers. *)
From Verif Require Import Word Res RegionModel RegionSpec RegDelModel.
From Coq Require Import ZArith List Bool.
Import ListNotations.
Open Scope Z_scope.

Definition rvalid2 (L : list seg) (a : rop2) : Prop :=
  match a with R1 a => rvalid L a | RSetup a | RExist a | RDelReg a => 0 <= a < 2 ^ 48 | RDelAll => True end.
Definition rafter2 (L : list seg) (a : rop2) : list seg := match a with R1 a => rafter L a | RDelAll => [] | _ => L end.
Inductive rreach2 : rst -> list seg -> Prop :=
| rreach2_init : rreach2 r0 []
| rreach2_step s L a r s' : rreach2 s L -> rvalid2 L a -> rstep2 a s = Ok (r, s') -> rreach2 s' (rafter2 L a).
(** A registered segment has one of its 2 MB steps in the 1 TB window of [a]. *)
Definition uses (L : list seg) (a : Z) : Prop := exists x k, In x L /\ 0 <= k < ss x / 2097152 /\ window (sb x + k * 2097152) = window a.
