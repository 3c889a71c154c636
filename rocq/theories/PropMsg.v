(** C82: the messages of the library. *)
From Verif Require Import Res MsgModel MsgTable MsgSpec MsgProofs.
From Coq Require Import ZArith List Bool Ascii String Lia.
Import ListNotations.
Open Scope Z_scope.

(** The two passes of perror, pwarning and ptrace: prefix, text with its values, new line, if both fit in the 4096 bytes; otherwise a byte after a buffer is
    written.  For every format and arguments of the types it asks for. *)
Theorem C82_two_passes : forall prefix w f a out, In prefix [P_ERR; P_WARN; P_TRACE] -> all_written w -> typed f a -> exists t, says f a t /\ slen t <= slen f + widths a /\
  say prefix w f a out = if (slen prefix + slen f + 2 <=? 4096) && (slen prefix + slen t + 2 <=? 4096) then Ok (out ++ prefix ++ t ++ NL)%string else UB.
Proof.
  intros prefix w f a out P W T. apply say_typed; [|exact W|exact T]. destruct P as [<-|[<-|[<-|[]]]]; reflexivity.
Qed.
Print Assumptions C82_two_passes.

(** The 75 callers of warning, fatal, sctk_fatal and assume_m: the place, the condition and the message are printed whole, for every place of the sources
    up to 3600 bytes; the message is the one wanted if it has no values. *)
Theorem C82_callers_partial : forall w dir s a out, all_written w -> In s msites -> slen dir <= 3600 ->
  exists d, is_dec (ms_line s) d /\ m_site w dir s a out = Ok (out ++ wanted dir s d (ms_msg s))%string /\ (plain (ms_msg s) = true -> says (ms_msg s) a (ms_msg s)).
Proof. intros w dir s a out W I D. destruct (site_whole w dir s a out W I D) as (d & H1 & H2). exists d. split; [exact H1|]. split; [exact H2|]. exact (plain_says (ms_msg s) a). Qed.
Print Assumptions C82_callers_partial.

(** The messages with values that are printed directly. *)
Theorem C82_no_memory : forall w heap req out, all_written w -> ptr_ok heap -> ptr_ok req -> exists t,
  says "Out of memory, current limitation is %lu MB of virtual memory, request is %lu MB." [ALong (heap / 1024 / 1024); ALong (req / 1024 / 1024)] t /\
  m_no_memory w heap req out = Ok (out ++ P_ERR ++ t ++ NL)%string.
Proof. exact no_memory_whole. Qed.
Print Assumptions C82_no_memory.
Theorem C82_dont_free : forall w ptr cnt out, all_written w -> ptr_ok ptr -> int_ok cnt ->
  exists t, says "Don't free the block %p (cnt = %d)." [APtr ptr; AInt cnt] t /\ m_dont_free w ptr cnt out = Ok (out ++ P_WARN ++ t ++ NL)%string.
Proof. exact dont_free_whole. Qed.
Print Assumptions C82_dont_free.
Theorem C82_bind : forall w node size addr out, all_written w -> int_ok node -> ptr_ok size -> ptr_ok addr ->
  exists t, says "numa node id : %d, size : %lu, ptr=%p" [AInt node; ALong size; APtr addr] t /\ m_bind w node size addr out = Ok (out ++ P_WARN ++ t ++ NL)%string.
Proof. exact bind_whole. Qed.
Print Assumptions C82_bind.
(** The trace, but for realloc; the name of its file. *)
Theorem C82_trace : forall w t out, all_written w -> trace_ok t -> exists f x, convs f = List.length (trace_values t) /\ says f (trace_values t) x /\ m_trace w t out = Ok (out ++ P_TRACE ++ x ++ NL)%string.
Proof. exact trace_whole. Qed.
Print Assumptions C82_trace.
Theorem C82_trace_name : forall pid, 0 <= pid < 2 ^ 31 -> exists d, is_dec pid d /\ trace_name pid = Ok ("alloc-trace-" ++ d ++ ".txt")%string.
Proof. exact name_fits. Qed.
Print Assumptions C82_trace_name.

(** Refuted: the size of the buffers is dropped on the way to sprintf; a message given to sctk_alloc_numa_check is written after the end from 4075 bytes on
    (4073 for a warning). *)
Theorem C82_overflow_refuted : forall w fatal m out, all_written w -> m_message w fatal m out =
  if slen (if fatal then P_ERR else P_WARN) + slen m + 3 <=? 4096 then Ok (out ++ (if fatal then P_ERR else P_WARN) ++ m ++ NL ++ NL)%string else UB.
Proof. exact message_eq. Qed.
Print Assumptions C82_overflow_refuted.

(** Refuted: the report of sctk_alloc_numa_check gives a double to %d. *)
Theorem C82_ratio_refuted : forall w fatal file line minr node out, m_ratio w fatal file line minr node out = UB.
Proof. exact ratio_ub. Qed.
Print Assumptions C82_ratio_refuted.

(** Refuted: the trace of realloc has four conversions and three values. *)
Theorem C82_realloc_refuted : forall w p old n out, m_trace w (TReal p old n) out = UB.
Proof. exact realloc_ub. Qed.
Print Assumptions C82_realloc_refuted.

(** Refuted: the values that sctk_fatal and assume_m get are not printed: the text is the same for all of them. *)
Theorem C82_values_refuted : forall w dir s a b out, ms_kind s <> KWarn -> all_written w -> m_site w dir s a out = m_site w dir s b out.
Proof. exact same_values. Qed.
Print Assumptions C82_values_refuted.

(** Freeing a foreign pointer in strict mode: the texts wanted for two pointers differ (and the one printed is the same). *)
Theorem C82_free_values : forall p q t u, p <> q -> says "Allocator error on free(%p), the address you provide is not managed by this memory allocator." [APtr p] t ->
  says "Allocator error on free(%p), the address you provide is not managed by this memory allocator." [APtr q] u -> t <> u.
Proof. exact free_differ. Qed.
Print Assumptions C82_free_values.

(** Refuted: write is called once; what it does not take is lost. *)
Theorem C82_short_write_refuted : forall prefix w f a out msg, say prefix (fun n => n) f a out = Ok (out ++ msg)%string ->
  say prefix w f a out = Ok (out ++ substring 0 (Z.to_nat (Z.min (w (slen msg)) (slen msg))) msg)%string.
Proof. exact once. Qed.
Print Assumptions C82_short_write_refuted.

(** ** The hypotheses are met *)
Definition wall : Z -> Z := fun n => n.
Example C82_met : all_written wall /\ List.length msites = 75%nat /\
  m_no_memory wall (2 ^ 40) 4194304 "" = Ok ("SCTK_ALLOC_ERROR : Out of memory, current limitation is 1048576 MB of virtual memory, request is 4 MB." ++ NL)%string /\
  m_dont_free wall 140737488347136 3 "" = Ok ("SCTK_ALLOC_WARNING : Don't free the block 0x7fffffffe000 (cnt = 3)." ++ NL)%string /\
  m_bind wall (-1) 4096 0 "" = Ok ("SCTK_ALLOC_WARNING : numa node id : -1, size : 4096, ptr=(nil)" ++ NL)%string /\
  trace_name 4242 = Ok "alloc-trace-4242.txt"%string /\
  m_trace wall (TFree 16 32) "" = Ok ("SCTK_ALLOC_TRACE : free(ptr0x10); //0x20" ++ NL)%string.
Proof. split; [intros n _; reflexivity|]. repeat split; vm_compute; reflexivity. Qed.
(** The callers whose message has values, and what free of a foreign pointer prints. *)
Example C82_met_values : map (fun s => (ms_file s, ms_line s)) (filter (fun s => negb (plain (ms_msg s))) msites) =
  [("sctk_alloc_config.c", 123); ("sctk_alloc_posix.c", 358); ("sctk_alloc_posix.c", 704); ("sctk_alloc_posix.c", 838); ("sctk_allocator.c", 1602); ("sctk_allocator.c", 1744)]%string.
Proof. vm_compute. reflexivity. Qed.
Example C82_met_fatal : m_site wall "/src/" (mkSite KFatal "sctk_alloc_posix.c" 704 "" "Allocator error on free(%p), the address you provide is not managed by this memory allocator.") [APtr 4096] "" =
  Ok ("SCTK_ALLOC_ERROR : Fatal error at /src/sctk_alloc_posix.c!704" ++ NL ++ "Allocator error on free(%p), the address you provide is not managed by this memory allocator." ++ NL ++ NL)%string.
Proof. vm_compute. reflexivity. Qed.
Fixpoint xs (n : nat) : string := match n with O => EmptyString | S n => String "x" (xs n) end.
Example C82_met_overflow : m_message wall true (xs 4075) "" = UB /\ m_message wall false (xs 4073) "" = UB /\
  match m_message wall true (xs 4074) "" with Ok t => slen t | _ => 0 end = 4095 /\ m_message (fun _ => 5) false "moved" "" = Ok "SCTK_"%string.
Proof. repeat split; vm_compute; reflexivity. Qed.
