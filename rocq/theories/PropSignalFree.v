(** Property C88, fourth part: a handler that frees inside a free of a chain without lock. *)
From Verif Require Import Word Res Mem SizeClassModel ChainModel ChainSpec ChainRun SignalChain SignalFree.
From Coq Require Import ZArith List Bool Lia.
Import ListNotations.
Open Scope Z_scope.

(** C88 (refuted). A free puts the chunk [a] at the end of the list [fl] and is stopped before the store to the head
    ([free_list_insert] is [insert_begin], then [insert_end]: [insert_whole]).  A handler puts the chunk [b] at the end of
    the same list.  Back from the handler [a] is marked as free, but no search in the list comes to it: it is lost.
    The chunks of the list, its head, [a] and [b] do not meet each other nor the status byte of the list. *)
Theorem C88_free_refuted : forall g s a b i za zb fl fg, fl = flist g i -> fg = cpool g + POOL_STATUS + list_id g fl ->
  get_size a s = Ok (za, s) -> insert_class za = Ok i -> get_size b s = Ok (zb, s) -> insert_class zb = Ok i ->
  0 <= a < 2 ^ 64 -> 0 <= b < 2 ^ 64 -> 0 <= fl < 2 ^ 64 ->
  (forall x y, (x = a \/ x = b \/ x = fl \/ onlist s fl x) -> (y = a \/ y = b \/ y = fl \/ onlist s fl y) -> x = y \/ x + 32 <= y \/ y + 32 <= x) ->
  (forall x, (x = a \/ x = b \/ x = fl \/ onlist s fl x) -> fg < x \/ x + 32 <= fg) ->
  a <> b -> a <> fl -> b <> fl -> ~ onlist s fl a -> ~ onlist s fl b ->
  (forall p, get_prev fl s = Ok (p, s) -> p = fl \/ onlist s fl p) ->
  forall l s1 s2 s3, insert_begin g a s = Ok (l, s1) -> free_list_insert g b AtEnd s1 = Ok (tt, s2) -> insert_end g a l s2 = Ok (tt, s3) ->
  onlist s3 fl b /\ get_state (a + 15) s3 = Ok (S_FREE, s3) /\ forall x, onlist s3 fl x -> x <> a.
Proof. exact inside. Qed.
Print Assumptions C88_free_refuted.

(** Seven blocks of 100 bytes, the second one freed: the fourth one is freed, and the sixth one in the handler (no code of its own in /repo). *)
Definition h88 : list op := ORefill 1048576 4096 :: repeat (OAlloc 0 100 None) 7 ++ [OFree 1048752].
Definition S88 : st := fin_s 200 gu h88.
Definition O88 : obs := fin_o 200 gu h88.
Definition cls88 : Z := match insert_class 128 with Ok i => i | _ => -1 end.
Definition fl88 : Z := flist gu cls88.
(** (no code of its own in /repo) *)
Definition val_of (x : res (Z * st)) : Z := match x with Ok (v, _) => v | _ => -1 end.
(** (no code of its own in /repo) *)
Definition st_of (x : res (Z * st)) : st := match x with Ok (_, s) => s | _ => st_nil end.
Lemma ok_of x : match x with Ok _ => true | _ => false end = true -> x = Ok (val_of x, st_of x).
Proof. destruct x as [[v s]| | |]; [reflexivity|discriminate..]. Qed.
Lemma ok_val x v : match x with Ok _ => true | _ => false end = true -> val_of x = v -> x = Ok (v, st_of x).
Proof. intros E <-. exact (ok_of x E). Qed.
(** The states at the stop, after the handler, and at the end (no code of its own in /repo). *)
Definition B88 : st := st_of (insert_begin gu 1048992 S88).
Definition C88s : st := state_of (free_list_insert gu 1049248 AtEnd B88) st_nil.
Definition D88 : st := state_of (insert_end gu 1048992 65632 C88s) st_nil.
Lemma on_two : forall s fl c, get_next fl s = Ok (c, s) -> get_next c s = Ok (fl, s) -> forall x, onlist s fl x <-> x = c \/ x = fl.
Proof.
  intros s fl c N1 N2 x. split.
  - intros O. induction O as [x E|y x O IH E]; [rewrite N1 in E; injection E as <-; left; reflexivity|].
    destruct IH as [->| ->]; [rewrite N2 in E|rewrite N1 in E]; injection E as <-; [right|left]; reflexivity.
  - intros [->| ->]; [exact (on_first _ _ _ N1)|exact (on_next _ _ _ _ (on_first _ _ _ N1) N2)].
Qed.
Lemma on88 : forall x, onlist S88 65632 x <-> x = 1048736 \/ x = 65632.
Proof. apply on_two; (apply gives_same; [apply rd_load|vm_compute; reflexivity]). Qed.
Example C88_free_nontrivial : reach gu S88 O88 /\ In 1049008 (map bp (live O88)) /\ In 1049264 (map bp (live O88)) /\
  get_size 1048992 S88 = Ok (128, S88) /\ get_size 1049248 S88 = Ok (128, S88) /\ insert_class 128 = Ok 3 /\ flist gu 3 = 65632 /\
  (forall x y, (x = 1048992 \/ x = 1049248 \/ x = 65632 \/ onlist S88 65632 x) -> (y = 1048992 \/ y = 1049248 \/ y = 65632 \/ onlist S88 65632 y) ->
    x = y \/ x + 32 <= y \/ y + 32 <= x) /\
  (forall x, (x = 1048992 \/ x = 1049248 \/ x = 65632 \/ onlist S88 65632 x) -> 67075 < x \/ x + 32 <= 67075) /\
  cpool gu + POOL_STATUS + list_id gu 65632 = 67075 /\ ~ onlist S88 65632 1048992 /\ ~ onlist S88 65632 1049248 /\
  get_prev 65632 S88 = Ok (1048736, S88) /\ onlist S88 65632 1048736 /\
  insert_begin gu 1048992 S88 = Ok (65632, B88) /\ free_list_insert gu 1049248 AtEnd B88 = Ok (tt, C88s) /\ insert_end gu 1048992 65632 C88s = Ok (tt, D88).
Proof.
  assert (OX := fun x => proj1 (on88 x)).
  split; [apply fin_reach; vm_compute; reflexivity|]. split; [vm_compute; tauto|]. split; [vm_compute; tauto|].
  split; [apply gives_same; [apply rd_load|vm_compute; reflexivity]|]. split; [apply gives_same; [apply rd_load|vm_compute; reflexivity]|].
  split; [vm_compute; reflexivity|]. split; [vm_compute; reflexivity|].
  split; [intros x y [->|[->|[->|X]]] [->|[->|[->|Y]]]; try (apply OX in X); try (apply OX in Y); lia|].
  split; [intros x [->|[->|[->|X]]]; try (apply OX in X); lia|]. split; [vm_compute; reflexivity|].
  split; [intros X; apply OX in X; lia|]. split; [intros X; apply OX in X; lia|].
  split; [apply gives_same; [apply rd_load|vm_compute; reflexivity]|]. split; [apply on88; left; reflexivity|].
  split; [apply ok_val; vm_compute; reflexivity|]. split; [apply done_ok; vm_compute; reflexivity|]. apply done_ok; vm_compute; reflexivity.
Qed.
