(** The light memory source (C31, C32, C33, C46). *)
From Verif Require Import Word Res Mem LightModel LightSpec LightProofs.
From Coq Require Import ZArith List Bool Lia.
Import ListNotations.
Open Scope Z_scope.

(** C31: a request gives a segment of exactly the size asked for, disjoint from all segments handed out, which was kept by the source or
    freshly given by the OS. *)
Theorem C31_result : forall g ins s out n gr, lightreach g ins s out -> lvalid g ins s out (LReq n gr) ->
  exists r s', lightstep g (LReq n gr) s = Ok (r, s') /\ 0 < r /\ In (r, n) (lmap s') /\ ld (lmem s') r 7 = n /\ ld (lmem s') (r + 16) 8 = 0 /\
    (forall x, In x out -> disj (r, n) x) /\ (kept s out r n \/ gr = Some r /\ fresh s r n).
Proof. exact light_result. Qed.
Print Assumptions C31_result.

(** C31: at any time the segments handed out are pairwise disjoint, mapped, and their headers give their sizes. *)
Theorem C31_disjoint : forall g ins s out, lightreach g ins s out ->
  ForallOrdPairs disj out /\ forall b n, In (b, n) out -> 0 < b /\ 0 < n /\ b + n <= 2 ^ 47 /\ In (b, n) (lmap s) /\ ld (lmem s) b 7 = n.
Proof. exact light_disjoint. Qed.
Print Assumptions C31_disjoint.

(** C31: the source never writes to a segment that is handed out before and after the call. *)
Theorem C31_untouched : forall g ins s out a r s', lightreach g ins s out -> lvalid g ins s out a -> lightstep g a s = Ok (r, s') ->
  forall b n y, In (b, n) out -> In (b, n) (lafter out a r) -> b <= y < b + n ->
  lmem s' y = match a with LWrite x v => if y =? x then v else lmem s y | _ => lmem s y end.
Proof. exact light_untouched. Qed.
Print Assumptions C31_untouched.

(** C31: valid calls return: no invalid access, no abort, no endless loop. *)
Theorem C31_calls_return : forall g ins s out a, lightreach g ins s out -> lvalid g ins s out a -> exists r s', lightstep g a s = Ok (r, s').
Proof. exact light_returns. Qed.
Print Assumptions C31_calls_return.

(** C32: the counter is the number of segments handed out, the cached size is the size of the memory mapped and not handed out. *)
Theorem C32_accounting : forall g ins s out, lightreach g ins s out ->
  lcnt s = Z.of_nat (length out) /\ lsz s = total (lmap s) - total out /\ 0 <= lsz s < 2 ^ 64.
Proof. exact light_accounting. Qed.
Print Assumptions C32_accounting.

(** C32: without segments inserted by the user, what is kept exceeds the limit by at most one keepable segment. *)
Theorem C32_bound : forall g s out, 0 <= keep_max g -> 0 <= keep_mem g -> lightreach g false s out ->
  total (lmap s) - total out <= keep_mem g + keep_max g.
Proof. exact light_bound. Qed.
Print Assumptions C32_bound.

(** C32: a segment given back stays mapped when it is small enough and the limit is not exceeded; otherwise it and only it goes back to the OS. *)
Theorem C32_keep_or_unmap : forall g ins s out b n r s', lightreach g ins s out -> In (b, n) out -> lightstep g (LFree b) s = Ok (r, s') ->
  (n <= keep_max g /\ lsz s <= keep_mem g -> lmap s' = lmap s) /\
  (~ (n <= keep_max g /\ lsz s <= keep_mem g) -> forall x, In x (lmap s') <-> In x (lmap s) /\ x <> (b, n)).
Proof. exact light_free. Qed.
Print Assumptions C32_keep_or_unmap.

(** C33: when a segment of the right size is kept, the request is served without the OS, whatever the OS would answer. *)
Theorem C33_served_from_cache_partial : forall g ins s out b n gr, lightreach g ins s out -> 0 < n -> n <= keep_max g -> kept s out b n ->
  match gr with Some a => fresh s a n | None => True end ->
  exists r s', lightstep g (LReq n gr) s = Ok (r, s') /\ kept s out r n /\ lmap s' = lmap s.
Proof. exact light_reuse. Qed.
Print Assumptions C33_served_from_cache_partial.

(** C33 is false: in every reachable state, a request that the cache cannot serve and the OS refuses writes a header at MAP_FAILED.
    The full statement asks for NULL. *)
Theorem C33_mmap_failure_refuted : forall g ins s out n, lightreach g ins s out -> 0 < n -> (n <= keep_max g -> forall b, ~ kept s out b n) ->
  lightstep g (LReq n None) s = UB.
Proof. exact light_no_memory. Qed.
Print Assumptions C33_mmap_failure_refuted.

(** C46: once all segments are back, cleanup unmaps everything; before that it aborts. *)
Theorem C46_cleanup : forall g ins s, lightreach g ins s [] -> exists s', cleanup (loop_bound s) s = Ok s' /\ lmap s' = [].
Proof. exact light_cleanup. Qed.
Print Assumptions C46_cleanup.
Theorem C46_cleanup_refused : forall g ins s out, lightreach g ins s out -> out <> [] -> cleanup (loop_bound s) s = Abort.
Proof. exact light_cleanup_held. Qed.
Print Assumptions C46_cleanup_refused.

(** A concrete history: two segments, both given back, one too big for the cache; the small one is reused without the OS. *)
Definition g1 : lcfg := mkLcfg 8388608 536870912.
Definition play (l : list lop) (s : ls) : ls :=
  fold_left (fun s a => match lightstep g1 a s with Ok (_, s) => s | _ => s end) l s.
Definition res1 (l : list lop) (a : lop) : Z := match lightstep g1 a (play l (ls0 (fun _ => 7))) with Ok (r, _) => r | _ => -1 end.
Definition h1 : list lop := [LReq 2097152 (Some 4194304); LReq 16777216 (Some 33554432); LWrite 4194400 5; LFree 4194304].
Lemma play_reach l a r out : lightreach g1 true (play l (ls0 (fun _ => 7))) out -> lvalid g1 true (play l (ls0 (fun _ => 7))) out a ->
  res1 l a = r -> r <> -1 -> lightreach g1 true (play (l ++ [a]) (ls0 (fun _ => 7))) (lafter out a r).
Proof.
  intros R V E NE. unfold play in *. rewrite fold_left_app. cbn [fold_left]. unfold res1, play in E. destruct (lightstep g1 a _) as [[r' s']| | |] eqn:S; try congruence.
  subst r'. exact (light_step g1 true _ out a r s' R V S).
Qed.
Example h1_reach : lightreach g1 true (play h1 (ls0 (fun _ => 7))) [(33554432, 16777216)] /\ kept (play h1 (ls0 (fun _ => 7))) [(33554432, 16777216)] 4194304 2097152.
Proof.
  split.
  - pose proof (light_init g1 true (fun _ => 7)) as R. change (ls0 (fun _ => 7)) with (play [] (ls0 (fun _ => 7))) in R at 1.
    apply (play_reach [] (LReq 2097152 (Some 4194304)) 4194304) in R; [|cbn; unfold fresh; cbn; repeat split; try lia; intros x []|vm_compute; reflexivity|lia].
    apply (play_reach _ (LReq 16777216 (Some 33554432)) 33554432) in R;
      [|cbn; unfold fresh; cbn; repeat split; try lia; intros x [<-|[]]; unfold disj; cbn; lia|vm_compute; reflexivity|lia].
    apply (play_reach _ (LWrite 4194400 5) 0) in R; [|cbn; exists 4194304, 2097152; split; [right; left; reflexivity|lia]|vm_compute; reflexivity|lia].
    apply (play_reach _ (LFree 4194304) 0) in R; [exact R|cbn; exists 2097152; right; left; reflexivity|vm_compute; reflexivity|lia].
  - unfold kept. replace (lmap (play h1 (ls0 (fun _ => 7)))) with [(33554432, 16777216); (4194304, 2097152)] by (vm_compute; reflexivity). split.
    + right; left; reflexivity.
    + intros [E|[]]. discriminate.
Qed.
Example C31_nontrivial : res1 h1 (LReq 2097152 None) = 4194304 /\ res1 h1 (LReq 4096 (Some 8192)) = 8192 /\
  lmap (play (h1 ++ [LFree 33554432]) (ls0 (fun _ => 7))) = [(4194304, 2097152)] /\ lsz (play h1 (ls0 (fun _ => 7))) = 2097152 /\
  lcnt (play h1 (ls0 (fun _ => 7))) = 1.
Proof. repeat split; vm_compute; reflexivity. Qed.
