(** Property C38: header fields are independent. *)
From Verif Require Import Word Res Mem HeaderModel HeaderSpec HeaderProofs ChainModel.
From Coq Require Import ZArith Bool.
Open Scope Z_scope.

(** C38. [f_val] reads a field as bits of the 128-bit number stored in the header (offsets and widths of a table
    that does not mention the accessors).  On both layouts the accessors of the code read these bits ... *)
Theorem C38_read : forall L m a f, h_get L m a f = f_val m a f.
Proof. exact h_get_ok. Qed.
Print Assumptions C38_read.

(** ... writing a field, of any previous header content, changes this field to the value modulo its width, no other
    field, and no byte outside the header ... *)
Theorem C38_write : forall L m a f v f', f_val (h_set L m a f v) a f' = if field_eqb f f' then v mod 2 ^ f_wid f else f_val m a f'.
Proof. exact h_set_ok. Qed.
Print Assumptions C38_write.
Theorem C38_write_inside : forall L m a f v x, ~ a <= x < a + 16 -> h_set L m a f v x = m x.
Proof. exact h_set_frame. Qed.
Print Assumptions C38_write_inside.

(** ... and both layouts write the same bytes. *)
Theorem C38_same_layout : forall m a f v x, h_set Unix m a f v x mod 256 = h_set Windows m a f v x mod 256.
Proof. exact h_layouts. Qed.
Print Assumptions C38_same_layout.

(** The same for the headers of aligned blocks. *)
Theorem C38_padded_read : forall L m a f, p_get L m a f = p_val m a f.
Proof. exact p_get_ok. Qed.
Print Assumptions C38_padded_read.
Theorem C38_padded_write : forall L m a f v f', p_val (p_set L m a f v) a f' = if pfield_eqb f f' then v mod 2 ^ p_wid f else p_val m a f'.
Proof. exact p_set_ok. Qed.
Print Assumptions C38_padded_write.
Theorem C38_padded_inside : forall L m a f v x, ~ a <= x < a + 8 -> p_set L m a f v x = m x.
Proof. exact p_set_frame. Qed.
Print Assumptions C38_padded_inside.

(** The chain model reads and writes its headers with these accessors (Unix layout). *)
Theorem C38_chain_reads : forall s a v s',
  (get_size a s = Ok (v, s') -> v = h_get Unix (smem s) a FSize /\ s' = s) /\
  (get_prevsize a s = Ok (v, s') -> v = h_get Unix (smem s) a FPrev /\ s' = s) /\
  (get_type (a + 15) s = Ok (v, s') -> v = h_get Unix (smem s) a FType /\ s' = s) /\
  (get_state (a + 15) s = Ok (v, s') -> v = h_get Unix (smem s) a FState /\ s' = s) /\
  (get_magic (a + 15) s = Ok (v, s') -> v = h_get Unix (smem s) a FMagic /\ s' = s) /\
  (get_padding a s = Ok (v, s') -> v = p_get Unix (smem s) a PPad /\ s' = s).
Proof. exact chain_reads. Qed.
Print Assumptions C38_chain_reads.
Theorem C38_chain_writes : forall s a v s',
  (set_size a v s = Ok (tt, s') -> s' = set_mem s (h_set Unix (smem s) a FSize v)) /\
  (set_addr a v s = Ok (tt, s') -> s' = set_mem s (h_set Unix (smem s) a FAddr v)) /\
  (set_prevsize a v s = Ok (tt, s') -> s' = set_mem s (h_set Unix (smem s) a FPrev v)) /\
  (0 <= v < 4 -> set_type (a + 15) v s = Ok (tt, s') -> s' = set_mem s (h_set Unix (smem s) a FType v)) /\
  (0 <= v < 2 -> set_state (a + 15) v s = Ok (tt, s') -> s' = set_mem s (h_set Unix (smem s) a FState v)) /\
  (0 <= v < 32 -> set_magic (a + 15) v s = Ok (tt, s') -> s' = set_mem s (h_set Unix (smem s) a FMagic v)) /\
  (set_padding a v s = Ok (tt, s') -> s' = set_mem s (p_set Unix (smem s) a PPad v)).
Proof. exact chain_writes. Qed.
Print Assumptions C38_chain_writes.

Example C38_nontrivial : let m := fun x => (x * 37) mod 256 in
  h_get Windows (h_set Windows m 1000 FPrev (2 ^ 56 - 5)) 1000 FPrev = 2 ^ 56 - 5 /\
  h_get Windows (h_set Windows m 1000 FPrev (2 ^ 56 - 5)) 1000 FMagic = h_get Unix m 1000 FMagic /\ h_get Unix m 1000 FMagic = 22 /\
  h_get Unix (h_set Unix m 1000 FSize (2 ^ 56 + 7)) 1000 FSize = 7.
Proof. vm_compute. repeat split; reflexivity. Qed.
