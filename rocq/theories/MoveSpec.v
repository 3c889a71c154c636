(** What is expected when a thread moves to another node. *)
From Verif Require Import Res NodeModel NodeSpec MoveModel.
From Coq Require Import ZArith List Bool.
Import ListNotations.
Open Scope Z_scope.

(** Histories: requests of positive sizes; a chain starts before it has memory. *)
Definition vvalid (s : vst) (a : vact) : Prop :=
  match a with VStart c _ => nsegs (v_n s) c = [] /\ v_str s c = None | VReq _ n _ => 0 < n | _ => True end.
Inductive vreach (g : vcfg) : vst -> Prop :=
| vreach_0 : vreach g v0
| vreach_s s a s' : vreach g s -> vvalid s a -> vstep g a s = Ok s' -> vreach g s'.
Definition vgood (g : vcfg) : Prop := 2 <= v_nodes g <= 128.
(** Memory bound to a node: a segment of a chain, its structure, a segment kept by a source. *)
Definition right_node (s : vst) : Prop :=
  (forall c x k, In x (nsegs (v_n s) c) -> snd x = Some k -> k = nnode (nsrcs (v_n s) (nlink (v_n s) c))) /\
  (forall c k, v_str s c = Some k -> k = nnode (nsrcs (v_n s) (nlink (v_n s) c))) /\
  (forall j x k, In x (ncache (nsrcs (v_n s) j)) -> snd x = Some k -> k = nnode (nsrcs (v_n s) j)).
(** The history of a thread that hwloc knows to be bound to one node at each move, where getcpu is not compiled in. *)
Inductive vbound (g : vcfg) : vst -> Prop :=
| vbound_0 : vbound g v0
| vbound_m s c h k s' : vbound g s -> thread_on h k -> getcpu h = None -> vstep g (VMove c h) s = Ok s' -> vbound g s'
| vbound_s s a s' : vbound g s -> vvalid s a -> (forall c h, a <> VMove c h) -> vstep g a s = Ok s' -> vbound g s'.
