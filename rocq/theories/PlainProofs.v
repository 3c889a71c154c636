(** Proofs for C72. *)
From Verif Require Import Word Res Mem SizeClassModel SizeClassProofs ChainModel Wp ChainInv ChainZip ChainList ChainFl ChainPrim ChainFind ChainSplit ChainMerge ChainOps ChainAlloc ChainFree ChainSpec ChainCore ChainCoreFree ChainStep ChainRealloc ChainQueue ChainRefill ChainFuel ChainTrace ChainProps ChainWalk ChainCap ChainMore ChainExtra PlainModel.
From Coq Require Import ZArith List Bool Lia.
Import ListNotations.
Open Scope Z_scope.

Lemma plain_is fuel g gr reg n s : chain_alloc fuel g gr reg n (clear_ev s) = step fuel g (OAlloc reg n gr) s.
Proof. reflexivity. Qed.

Lemma plain_none fuel g gr reg n s : reg <= 1 -> chain_alloc fuel g gr reg n s = alloc_align fuel g gr 0 n s.
Proof. intros H. unfold chain_alloc, net_hook, alloc_align. destruct (Z.ltb_spec 1 reg); [lia|]. reflexivity. Qed.

Lemma segs_small g s o : reach g s o -> forall x z, In (x, z) (segs o) -> 0 < x /\ x + z <= 72057594037927936.
Proof.
  intros R x z H. destruct (reach_good _ _ _ R) as (A & F & G). assert (W := good_world _ _ _ _ _ G). rewrite (gd_segs _ _ _ _ _ G) in H.
  apply in_map_iff in H as (sg & E & H). pose proof (wd_seg _ _ _ _ W) as WS. rewrite Forall_forall in WS. destruct (WS sg H) as (H1 & H2 & _). unfold segr in E. injection E as <- <-. lia.
Qed.

Lemma plain_big g s o n gr fuel : reach g s o -> csrc g = false -> 0 < n < 2 ^ 61 -> fuel_ok g o (OAlloc (2 ^ 62) n gr) fuel ->
  chain_alloc fuel g gr (2 ^ 62) n (clear_ev s) = Ok (0, clear_ev s).
Proof.
  intros R C N F. rewrite plain_is. change (2 ^ 62) with 4611686018427387904 in *. change (2 ^ 61) with 2305843009213693952 in N.
  assert (V : valid g s o (OAlloc 4611686018427387904 n gr)).
  { cbn [valid]. unfold request_ok. rewrite C. split; [lia|]. split; [right; exists 62; split; [lia|reflexivity]|].
    split; [change (2 ^ 63) with 9223372036854775808; lia|]. split; discriminate. }
  destruct (step_runs g s o _ fuel R V F) as (r & s' & E & _).
  destruct (too_big g s o 4611686018427387904 n gr fuel r s' R V) as [-> ->]; [left; exact C| |exact E|exact E].
  intros x z H. destruct (segs_small g s o R x z H) as [H1 H2]. unfold room, asked. change (1 <? 4611686018427387904) with true. cbv iota. lia.
Qed.

Lemma plain_good g s o k n gr fuel r s' : reach g s o -> 0 <= k -> valid g s o (OAlloc (2 ^ k) n gr) -> chain_alloc fuel g gr (2 ^ k) n (clear_ev s) = Ok (r, s') -> r <> 0 ->
  exists o', reach g s' o' /\ In (mkBlk r n (2 ^ k)) (live o') /\ exists u, usable s' r u /\ n <= u /\ (1 <= k -> r mod 2 ^ k = 0).
Proof.
  intros R K V E NZ. rewrite plain_is in E. destruct (alloc_block _ _ _ _ _ _ _ _ _ R V E NZ) as (A & B & _).
  exists (next o (OAlloc (2 ^ k) n gr) r (sevs s')). split; [exact B|]. split; [exact A|].
  assert (HB : In (mkBlk r n (2 ^ k)) (blocks (next o (OAlloc (2 ^ k) n gr) r (sevs s')))) by (unfold blocks; apply in_or_app; left; exact A).
  destruct (blocks_inside _ _ _ B _ HB) as (u & x & z & H1 & H2 & _). exists u. split; [exact H1|]. split; [exact H2|].
  intros K1. destruct (blocks_aligned _ _ _ B _ HB) as [H _]. apply H. cbn [bd]. replace k with (k - 1 + 1) by lia. rewrite Z.pow_add_r by lia. pose proof (Z.pow_pos_nonneg 2 (k - 1)). lia.
Qed.
