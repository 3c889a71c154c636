(** Property C74: printing the chunks of a segment for debugging. [chunks m r] are the chunks of the segment [r] (address,
    size, free or not) read from memory, [segs o] the segments of the chain, [line_of] the right line of a chunk. *)
From Verif Require Import Word Res Mem ChainModel ChainSpec ChainRun DumpModel DumpSpec DumpProofs.
From Coq Require Import ZArith List Bool Lia.
Import ListNotations.
Open Scope Z_scope.

(** Started at the address of a chunk, with an end that is not above the end mark of the segment, the dump ends, changes
    nothing, and prints the right line of each chunk that starts after the first one and before the end, in order. *)
Theorem C74_prints : forall g s o, reach g s o -> forall r w c f e fuel, In r (segs o) -> In (w, c, f) (chunks (smem s) r) ->
  e <= fst r + snd r - 16 -> snd r < Z.of_nat fuel ->
  dump_segment fuel w e s = Ok (map line_of (pieces_in (smem s) r w e), s).
Proof. exact dump_ok. Qed.
Print Assumptions C74_prints.

(** Given the two ends of a segment, as its header asks, it prints no chunk: the first header it reads is the one
    of the whole segment. *)
Theorem C74_whole_refuted : forall g s o, reach g s o -> forall b z e fuel, In (b, z) (segs o) -> e <= b + z -> fuel <> O ->
  dump_segment fuel b e s = Ok ([], s).
Proof. exact dump_nothing. Qed.
Print Assumptions C74_whole_refuted.

(** Given a chunk and an end above the end mark (for instance the end of the segment), it never ends: the end mark has
    size 0 and is printed again and again. *)
Theorem C74_end_refuted : forall g s o, reach g s o -> forall r w c f e fuel, In r (segs o) -> In (w, c, f) (chunks (smem s) r) ->
  fst r + snd r - 16 < e -> dump_segment fuel w e s = OutOfFuel.
Proof. exact dump_stuck. Qed.
Print Assumptions C74_end_refuted.

(** A chain with three used chunks and a free one: the dump from the first chunk prints the three others; from the beginning
    of the segment, nothing; up to the end of the segment, it does not end. *)
Example C74_nontrivial : reach gu SU OU /\ segs OU = [(1048576, 4096)] /\
  chunks (smem SU) (1048576, 4096) = [(1048608, 128, false); (1048736, 288, false); (1049024, 32, false); (1049056, 3600, true)] /\
  option_map fst (match dump_segment 5000 1048608 (1048576 + 4096 - 16) SU with Ok x => Some x | _ => None end) =
    Some [(1048736, 0, 288, 1, 1); (1049024, 0, 32, 1, 1); (1049056, 0, 3600, 1, 0)] /\
  option_map fst (match dump_segment 5000 1048576 (1048576 + 4096) SU with Ok x => Some x | _ => None end) = Some [].
Proof. split; [apply reach_U|]. vm_compute. tauto. Qed.
