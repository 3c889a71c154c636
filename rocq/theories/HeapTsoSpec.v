(** Vocabulary: the story without buffers and without interleaving of the bodies of calls. *)
From Verif Require Import LockModel HeapTsoModel.
From Coq Require Import ZArith List Bool.
Import ListNotations.
Open Scope Z_scope.

(** The body of a call run alone on one memory. *)
Fixpoint prun (p : prog) (m : Z -> Z) : Z * (Z -> Z) :=
  match p with PRet r => (r, m) | PRd c k => prun (k (m c)) m | PWr c v k => prun k (fun x => if x =? c then v else m x) end.
(** Run on this memory, the body loads only cells of the allocator and headers, and stores only to cells of the allocator. *)
Fixpoint safe (o : Z -> owner) (p : prog) (m : Z -> Z) : Prop :=
  match p with
  | PRet _ => True
  | PRd c k => match o c with OAlloc | OUse true _ _ => True | OUse false _ _ => False end /\ safe o (k (m c)) m
  | PWr c v k => o c = OAlloc /\ safe o k (fun x => if x =? c then v else m x)
  end.

Section Story.
Variable A : Type.
Variable P : A -> prog.
Variable gives : A -> list Z.
Variables takes heads : A -> Z -> list Z.

(** A thread outside calls, in a call that has had no effect yet, in a call that has had its effect. *)
Inductive stat := SOut | SIn (a : A) | SRet (r : Z).
Record seqst := mkQ { qm : Z -> Z; qo : Z -> owner; qc : nat -> stat }.

(** The trace read with one memory for all: loads give the last value stored, a call acts at one moment between call and return, on the
    memory of this moment, and gets memory that nobody has; threads load and store in what they have.  [None]: not so. *)
Definition tell (q : seqst) (e : hev A) : option seqst :=
  match e with
  | HvCall _ t a => match qc q t with
                    | SOut => if forallb (fun c => has t (qo q c)) (gives a) then Some (mkQ (qm q) (qo q) (fupd (qc q) t (SIn a))) else None
                    | _ => None
                    end
  | HvOp _ t r => match qc q t with
                  | SIn a => let o := oset (qo q) (gives a) OAlloc in
                             if (fst (prun (P a) (qm q)) =? r) && forallb (fun c => is_alloc (o c)) (takes a r ++ heads a r)
                             then Some (mkQ (snd (prun (P a) (qm q))) (oset (oset o (takes a r) (OUse false false t)) (heads a r) (OUse true false t))
                                            (fupd (qc q) t (SRet r))) else None
                  | _ => None
                  end
  | HvRet _ t r => match qc q t with SRet r' => if r' =? r then Some (mkQ (qm q) (qo q) (fupd (qc q) t SOut)) else None | _ => None end
  | HvRd _ t c v => match qc q t with SOut => if has t (qo q c) && (qm q c =? v) then Some q else None | _ => None end
  | HvWr _ t c v => match qc q t with
                    | SOut => if has_rw t (qo q c) then Some (mkQ (fun x => if x =? c then v else qm q x) (qo q) (qc q)) else None
                    | _ => None
                    end
  | HvSend _ t u l => match qc q t with
                      | SOut => if forallb (fun c => has t (qo q c)) l then Some (mkQ (qm q) (osend (qo q) l) (qc q)) else None
                      | _ => None
                      end
  | HvGot _ u l => if forallb (fun c => on_way (qo q c)) l then Some (mkQ (qm q) (ogot (qo q) l u) (qc q)) else None
  end.
Fixpoint story (q : seqst) (h : list (hev A)) : option seqst :=
  match h with [] => Some q | e :: r => match tell q e with Some q' => story q' r | None => None end end.
Definition q0 (m : Z -> Z) (o : Z -> owner) : seqst := mkQ m o (fun _ => SOut).

(** The calls are right one after another: after every story, the body of a call keeps to what it may touch, and what it returns was
    nobody's. *)
Definition right_alone (m : Z -> Z) (o : Z -> owner) : Prop := forall h q t a, story (q0 m o) h = Some q -> qc q t = SIn a ->
  safe (oset (qo q) (gives a) OAlloc) (P a) (qm q) /\
  forall c, In c (takes a (fst (prun (P a) (qm q))) ++ heads a (fst (prun (P a) (qm q)))) -> oset (qo q) (gives a) OAlloc c = OAlloc.

Inductive hexec (fifo : bool) : hst A -> list (hact A) -> hst A -> Prop :=
| hexec_nil : forall s, hexec fifo s [] s
| hexec_cons : forall s x s1 l s2, hstep A P gives takes heads fifo s x = Some s1 -> hexec fifo s1 l s2 -> hexec fifo s (x :: l) s2.
Definition hreach (fifo : bool) (m : Z -> Z) (o : Z -> owner) (s : hst A) : Prop := exists l, hexec fifo (h0 A m o) l s.
End Story.
