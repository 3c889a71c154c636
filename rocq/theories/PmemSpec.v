(** Histories of a persistent memory pool, seen from outside: the blocks handed out and the bytes of memory. *)
From Verif Require Import Word Res PmemModel.
From Coq Require Import ZArith List Bool.
Import ListNotations.
Open Scope Z_scope.

Inductive pop := PAlloc (n : Z) | PRelease (p n : Z) | PStore (a v : Z).
Definition prun (o : pop) (d : pdesc) (m : Z -> Z) : Z * pdesc * (Z -> Z) :=
  match o with
  | PAlloc n => let '(r, d') := pmalloc n d in (r, d', m)
  | PRelease p n => (0, d, pfree p n m)
  | PStore a v => (0, d, fun x => if x =? a then v else m x)
  end.
(** Blocks handed out so far, latest first (address and size), released or not: the pool never reuses them. *)
Definition pout (o : pop) (r : Z) (L : list (Z * Z)) : list (Z * Z) :=
  match o with PAlloc n => if r =? 0 then L else (r, n) :: L | _ => L end.
Definition psum (L : list (Z * Z)) : Z := fold_right (fun x s => snd x + s) 0 L.
(** A pool of [mx] bytes at [b] mapped by the system. *)
Definition ppool (b mx : Z) : Prop := 0 < b /\ 0 <= mx /\ b + mx < 2 ^ 64.
(** Sizes are [size_t]; [lim] bounds the requests. *)
Definition pvalid (lim : Z) (L : list (Z * Z)) (o : pop) : Prop :=
  match o with PAlloc n => 0 <= n < lim | PRelease p n => In (p, n) L | PStore a v => True end.
Inductive preach (lim b mx : Z) : pdesc -> (Z -> Z) -> list (Z * Z) -> Prop :=
| preach_init m : preach lim b mx (mkPd 0 mx b b) m []
| preach_step d m L o r d' m' : preach lim b mx d m L -> pvalid lim L o -> prun o d m = (r, d', m') -> preach lim b mx d' m' (pout o r L).
(** The blocks lie in the pool and do not overlap. *)
Definition pin (b mx : Z) (x : Z * Z) : Prop := b <= fst x /\ fst x + snd x <= b + mx.
Definition papart (x y : Z * Z) : Prop := fst x + snd x <= fst y \/ fst y + snd y <= fst x.

(** The smallest multiple of the page size that is at least [x]. *)
Definition page_ceiling (page x v : Z) : Prop := v mod page = 0 /\ x <= v < x + page.
