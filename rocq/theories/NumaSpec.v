(** Specification side of the NUMA scans. *)
From Coq Require Import ZArith List Bool.
Import ListNotations.
Open Scope Z_scope.

(** Number of times [x] occurs in [l]. *)
Definition visits (x : Z * Z) (l : list (Z * Z)) : Z := fold_right (fun y n => (if (fst y =? fst x) && (snd y =? snd x) then 1 else 0) + n) 0 l.
