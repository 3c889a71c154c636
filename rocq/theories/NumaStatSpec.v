(** What the NUMA statistics should say. *)
From Verif Require Import Word NumaStatModel.
From Coq Require Import ZArith List Bool.
Import ListNotations.
Open Scope Z_scope.

(** How many of the numbers below [n] satisfy [p]. *)
Definition count (p : Z -> bool) (n : nat) : Z := Z.of_nat (length (filter (fun i => p (Z.of_nat i)) (seq 0 n))).
(** The pages that an area touches. *)
Definition touched (ptr size : Z) : Z := (ptr + size - 1) / 4096 - ptr / 4096 + 1.
(** The node that the system reports for page [i] of the area, [MAXNODE] when it reports an error. *)
Definition on_node (w : world) (ptr : Z) (k i : Z) : bool :=
  let st := w_status w (ptr + i * 4096) in if (0 <=? st) && (st <? MAXNODE) then st =? k else k =? MAXNODE.
(** The page map is readable, its present pages have 4096 bytes, and move_pages answers. *)
Definition readable (w : world) (t : Z -> entry) (ptr size : Z) : Prop :=
  w_map w = Some t /\ w_calloc w = true /\ w_read w = true /\ w_move_pages w = true /\
  forall i, 0 <= i < size / 4096 -> e_present (t (ptr / 4096 + i)) = true -> e_order (t (ptr / 4096 + i)) = 12 /\ w_status w (ptr + i * 4096) <> -1.
Fixpoint sum_upto (f : Z -> Z) (n : nat) : Z := match n with O => 0 | S n => sum_upto f n + f (Z.of_nat n) end.
(** Sum over all the nodes and the slot "unknown". *)
Definition node_sum (s : nstat) : Z := sum_upto (st_pages s) 129.
(** Page [i] of the area is present; present and on node [k]; the system knows its node, which is [k]. *)
Definition present (t : Z -> entry) (ptr i : Z) : bool := e_present (t (ptr / 4096 + i)).
Definition present_on (w : world) (t : Z -> entry) (ptr k : Z) (i : Z) : bool := e_present (t (ptr / 4096 + i)) && on_node w ptr k i.
Definition known_on (w : world) (ptr k i : Z) : bool := negb (w_status w (ptr + i * 4096) =? -1) && on_node w ptr k i.
(** Pages of a list of areas (address, size). *)
Definition pages_sum (l : list (Z * Z)) : Z := fold_right (fun x n => snd x / 4096 + n) 0 l.
