(** Concrete histories of pools, checked by computation. *)
From Verif Require Import Word Res PmemModel PmemSpec PoolModel PoolSpec PoolProofs.
From Coq Require Import ZArith List Bool Lia.
Import ListNotations.
Open Scope Z_scope.

Definition after {A} (w : world) (x : res (A * world)) : world := match x with Ok (_, w) => w | _ => w end.
Definition A1 := mkAn 100 true KDir true 3 0 0 65536.
Definition A2 := mkAn 200 true KDir true 3 0 0 1048576.
Definition A4 := mkAn 300 true KDir true 3 0 28 MAP_FAILED.
Definition W1 : world := after nothing (pool_create 12 A1 4000 nothing).
Definition W2 : world := after nothing (pool_create 12 A2 5000 W1).
Definition W3 : world := after nothing (pool_malloc 100 100 W2).
Definition W4 : world := after nothing (pool_create 12 A4 4096 W3).
Definition W5 : world := after nothing (pool_destroy 12 100 4096 W4).
Definition W6 : world := after nothing (pool_destroy 12 100 4000 W1).
Definition A6 := mkAn 100 true KDir true 3 0 0 65536.
Definition A7 := mkAn 500 true KDir true 3 0 0 16842752.
Definition W6' : world := after nothing (pool_create 12 A6 16777217 nothing).
Definition W7 : world := after nothing (pool_create 12 A7 8192 W6').

Lemma free_pages k size w a v : roundup k size = Ok v -> (forall x, a <= x * 2 ^ k < a + v -> wpage w x = false) ->
  forall sz x, roundup k size = Ok sz -> a <= x * 2 ^ k < a + sz -> wpage w x = false.
Proof. intros R H sz x R'. rewrite R in R'. injection R' as <-. exact (H x). Qed.
Lemma run_1 : pool_create 12 A1 4000 nothing = Ok (100, 4096, W1). Proof. vm_compute. reflexivity. Qed.
Lemma run_2 : pool_create 12 A2 5000 W1 = Ok (200, 8192, W2). Proof. vm_compute. reflexivity. Qed.
Lemma run_3 : pool_malloc 100 100 W2 = Ok (65536, W3). Proof. vm_compute. reflexivity. Qed.
Lemma run_4 : pool_create 12 A4 4096 W3 = Ok (0, 4096, W4). Proof. vm_compute. reflexivity. Qed.
Lemma run_5 : pool_destroy 12 100 4096 W4 = Ok (0, W5). Proof. vm_compute. reflexivity. Qed.
Lemma run_6 : pool_destroy 12 100 4000 W1 = Ok (0, W6). Proof. vm_compute. reflexivity. Qed.
Lemma run_6' : pool_create 12 A6 16777217 nothing = Ok (100, 16777216, W6'). Proof. vm_compute. reflexivity. Qed.
Lemma run_7 : pool_create 12 A7 8192 W6' = Ok (500, 8192, W7). Proof. vm_compute. reflexivity. Qed.
Lemma pages_1 x : wpage W1 x = (16 <=? x) && (x <? 17). Proof. transitivity (if (16 <=? x) && (x <? 17) then true else false); [reflexivity|destruct (_ && _); reflexivity]. Qed.
Lemma pages_6 x : wpage W6' x = (16 <=? x) && (x <? 4112). Proof. transitivity (if (16 <=? x) && (x <? 4112) then true else false); [reflexivity|destruct (_ && _); reflexivity]. Qed.
Lemma ok_1 size : sys_ok 12 size nothing A1.
Proof.
  unfold sys_ok, A1, nothing. cbn [a_mem a_kind a_fd a_map wheap wfd wpage]. change (2 ^ 47) with 140737488355328. split; [lia|]. split; [intros []|]. split; [discriminate|].
  split; [right; split; [lia|intros []]|]. right. split; [lia|]. split; [reflexivity|]. intros. reflexivity.
Qed.
Lemma ok_2 : sys_ok 12 5000 W1 A2.
Proof.
  unfold sys_ok, A2. cbn [a_mem a_kind a_fd a_map]. change (2 ^ 47) with 140737488355328. split; [lia|]. split; [vm_compute; intros [X|[]]; discriminate|]. split; [discriminate|].
  split; [right; split; [lia|intros []]|]. right. split; [lia|]. split; [reflexivity|]. apply (free_pages 12 5000 W1 1048576 8192); [vm_compute; reflexivity|].
  change (2 ^ 12) with 4096. intros x Hx. rewrite pages_1. lia.
Qed.
Lemma ok_4 : sys_ok 12 4096 W3 A4.
Proof.
  unfold sys_ok, A4. cbn [a_mem a_kind a_fd a_map]. change (2 ^ 47) with 140737488355328. split; [lia|]. split; [vm_compute; intros [X|[X|[]]]; discriminate|]. split; [discriminate|].
  split; [right; split; [lia|intros []]|]. left. reflexivity.
Qed.
Lemma open_4 : opened A4. Proof. unfold opened, A4. cbn [a_access a_kind a_fd]. split; [reflexivity|]. split; [reflexivity|lia]. Qed.
Lemma ok_7 : sys_ok 12 8192 W6' A7.
Proof.
  unfold sys_ok, A7. cbn [a_mem a_kind a_fd a_map]. change (2 ^ 47) with 140737488355328. split; [lia|]. split; [vm_compute; intros [X|[]]; discriminate|]. split; [discriminate|].
  split; [right; split; [lia|intros []]|]. right. split; [lia|]. split; [reflexivity|]. apply (free_pages 12 8192 W6' 16842752 8192); [vm_compute; reflexivity|].
  change (2 ^ 12) with 4096. intros x Hx. rewrite pages_6. lia.
Qed.
Lemma nat64 x : 0 <= x <= 20000000 -> 0 <= x < 2 ^ 64. Proof. change (2 ^ 64) with 18446744073709551616. lia. Qed.
Lemma reach_1 : lreach 12 W1 [mkPool 100 65536 4096] [] [].
Proof. eapply ls_snoc; [apply ls_nil|]. apply (l_create 12 nothing [] [] [] A1 4000 100 4096 W1 (nat64 4000 ltac:(lia)) (ok_1 4000) run_1). lia. Qed.
Lemma reach_2 : lreach 12 W2 [mkPool 200 1048576 8192; mkPool 100 65536 4096] [] [].
Proof. eapply ls_snoc; [exact reach_1|]. apply (l_create 12 W1 _ [] [] A2 5000 200 8192 W2 (nat64 5000 ltac:(lia)) ok_2 run_2). lia. Qed.
Lemma reach_3 : lreach 12 W3 [mkPool 200 1048576 8192; mkPool 100 65536 4096] [] [].
Proof.
  eapply ls_snoc; [exact reach_2|]. apply (l_malloc 12 W2 _ [] [] (mkPool 100 65536 4096) 100 65536 W3); [right; left; reflexivity|apply nat64; lia|exact run_3].
Qed.
Lemma reach_4 : lreach 12 W4 [mkPool 200 1048576 8192; mkPool 100 65536 4096] [300] [3].
Proof. eapply ls_snoc; [exact reach_3|]. exact (l_fail_open 12 W3 _ [] [] A4 4096 4096 W4 (nat64 4096 ltac:(lia)) ok_4 run_4 open_4). Qed.
Lemma reach_5 : lreach 12 W5 [mkPool 200 1048576 8192] [300] [3].
Proof.
  eapply ls_snoc; [exact reach_4|]. apply (l_destroy 12 W4 [mkPool 200 1048576 8192] (mkPool 100 65536 4096) [] [300] [3] 4096 0 W5); [|exact run_5].
  cbn [pl_size]. change (2 ^ 12) with 4096. lia.
Qed.
Lemma reach_6 : lreach 12 W6 [] [] [].
Proof.
  eapply ls_snoc; [exact reach_1|]. apply (l_destroy 12 W1 [] (mkPool 100 65536 4096) [] [] [] 4000 0 W6); [|exact run_6]. cbn [pl_size]. change (2 ^ 12) with 4096. lia.
Qed.
Lemma reach_7 : lreach 12 W7 [mkPool 500 16842752 8192; mkPool 100 65536 16777216] [] [].
Proof.
  assert (R : lreach 12 W6' [mkPool 100 65536 16777216] [] []).
  { eapply ls_snoc; [apply ls_nil|]. apply (l_create 12 nothing [] [] [] A6 16777217 100 16777216 W6' (nat64 16777217 ltac:(lia)) (ok_1 16777217) run_6'). lia. }
  eapply ls_snoc; [exact R|]. apply (l_create 12 W6' _ [] [] A7 8192 500 8192 W7 (nat64 8192 ltac:(lia)) ok_7 run_7). lia.
Qed.
