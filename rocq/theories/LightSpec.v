(** Histories of a light memory source.  [out]: the segments (address, size) handed out and not given back. *)
From Verif Require Import Word Res Mem LightModel.
From Coq Require Import ZArith List Bool.
Import ListNotations.
Open Scope Z_scope.

Definition disj (x y : Z * Z) : Prop := fst x + snd x <= fst y \/ fst y + snd y <= fst x.
(** A range of user space made of whole pages, disjoint from all mappings. *)
Definition fresh (s : ls) (b n : Z) : Prop := 0 < b /\ b + n <= 2 ^ 47 /\ forall x, In x (lmap s) -> disj (b, n) x.
(** Memory the source keeps: mapped and not handed out. *)
Definition kept (s : ls) (out : list (Z * Z)) (b n : Z) : Prop := In (b, n) (lmap s) /\ ~ In (b, n) out.
Fixpoint total (l : list (Z * Z)) : Z := match l with [] => 0 | (_, n) :: r => n + total r end.

(** [ins]: does the user insert segments? *)
Definition lvalid (g : lcfg) (ins : bool) (s : ls) (out : list (Z * Z)) (a : lop) : Prop :=
  match a with
  | LReq n gr => 0 < n /\ n mod 4096 = 0 /\
      match gr with Some b => fresh s b n | None => n <= keep_max g /\ exists b, kept s out b n end
  | LFree b => exists n, In (b, n) out
  | LInsert b n => ins = true /\ 0 < n /\ b mod 4096 = 0 /\ n mod 2097152 = 0 /\ fresh s b n
  | LWrite x _ => exists b n, In (b, n) out /\ b + 16 <= x < b + n
  end.
Definition lafter (out : list (Z * Z)) (a : lop) (r : Z) : list (Z * Z) :=
  match a with
  | LReq n _ => (r, n) :: out
  | LFree b => filter (fun x => negb (fst x =? b)) out
  | _ => out
  end.
Inductive lightreach (g : lcfg) (ins : bool) : ls -> list (Z * Z) -> Prop :=
| light_init m : lightreach g ins (ls0 m) []
| light_step s out a r s' : lightreach g ins s out -> lvalid g ins s out a -> lightstep g a s = Ok (r, s') ->
    lightreach g ins s' (lafter out a r).
