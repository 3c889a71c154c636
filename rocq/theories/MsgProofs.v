(** Proofs about the messages (statements in PropMsg.v). *)
From Verif Require Import Res MsgModel MsgTable MsgSpec.
From Coq Require Import ZArith List Bool Ascii String Lia.
Import ListNotations.
Open Scope Z_scope.

(** ** Strings *)
Lemma app_assoc_s a b c : ((a ++ b) ++ c = a ++ b ++ c)%string.
Proof. induction a as [|x a IH]; [reflexivity|]. cbn [append]. rewrite IH. reflexivity. Qed.
Lemma app_nil_s a : (a ++ "" = a)%string.
Proof. induction a as [|x a IH]; [reflexivity|]. cbn [append]. rewrite IH. reflexivity. Qed.
Lemma slen_app a b : slen (a ++ b) = slen a + slen b.
Proof. unfold slen. induction a as [|x a IH]; [reflexivity|]. cbn [append String.length]. lia. Qed.
Lemma slen_cons c a : slen (String c a) = 1 + slen a.
Proof. unfold slen. cbn [String.length]. lia. Qed.
Lemma slen_pos a : 0 <= slen a.
Proof. unfold slen. lia. Qed.
Lemma sub_all t : substring 0 (String.length t) t = t.
Proof. induction t as [|c t IH]; [reflexivity|]. cbn. rewrite IH. reflexivity. Qed.
Lemma emit_all w out t : all_written w -> emit w out t = (out ++ t)%string.
Proof. intros W. unfold emit. rewrite (W (slen t) (slen_pos t)), Z.min_id. unfold slen. rewrite Nat2Z.id, sub_all. reflexivity. Qed.

(** ** Numbers *)
Lemma dig_val d : 0 <= d < 16 -> dval (dig d) = Some d.
Proof.
  intros H. assert (C : d = 0 \/ d = 1 \/ d = 2 \/ d = 3 \/ d = 4 \/ d = 5 \/ d = 6 \/ d = 7 \/ d = 8 \/ d = 9 \/ d = 10 \/ d = 11 \/ d = 12 \/ d = 13 \/ d = 14 \/ d = 15) by lia.
  repeat destruct C as [->|C]; try reflexivity. subst d. reflexivity.
Qed.
Lemma reads_digits base fuel : 2 <= base <= 16 -> forall n acc v, 0 <= n < base ^ Z.of_nat fuel -> (0 < fuel)%nat ->
  exists k, reads base v (digits fuel base n acc) = reads base (v * k + n) acc /\ 0 < k.
Proof.
  intros B. induction fuel as [|fuel IH]; intros n acc v H F; [lia|]. cbn [digits]. pose proof (Z.mod_pos_bound n base ltac:(lia)) as M.
  assert (D : forall v, reads base v (String (dig (n mod base)) acc) = reads base (base * v + n mod base) acc).
  { intros u. cbn [reads]. rewrite (dig_val (n mod base)) by lia. destruct (Z.ltb_spec (n mod base) base); [reflexivity|lia]. }
  destruct (Z.ltb_spec n base) as [L|L].
  - exists base. split; [|lia]. rewrite D. rewrite Z.mod_small by lia. f_equal. lia.
  - assert (Q : 0 <= n / base < base ^ Z.of_nat fuel).
    { rewrite Nat2Z.inj_succ, Z.pow_succ_r in H by lia. split; [apply Z.div_pos; lia|]. apply Z.div_lt_upper_bound; lia. }
    assert (FF : (0 < fuel)%nat). { destruct fuel; [|lia]. cbn [Z.of_nat Z.pow] in H. replace (base ^ Z.of_nat 1) with base in H by (cbn; lia). lia. }
    destruct (IH (n / base) (String (dig (n mod base)) acc) v Q FF) as (k & E & K). exists (base * k). split; [|lia]. rewrite E, D. f_equal.
    pose proof (Z.div_mod n base ltac:(lia)). lia.
Qed.
Lemma digits_read base fuel n : 2 <= base <= 16 -> 0 <= n < base ^ Z.of_nat fuel -> (0 < fuel)%nat -> reads base 0 (digits fuel base n "") = Some n.
Proof. intros B H F. destruct (reads_digits base fuel B n "" 0 H F) as (k & E & _). rewrite E. reflexivity. Qed.
Lemma digits_len base : forall fuel n acc, slen (digits fuel base n acc) <= Z.of_nat fuel + slen acc.
Proof.
  induction fuel as [|fuel IH]; intros n acc; cbn [digits]; [lia|]. destruct (n <? base); [rewrite slen_cons; lia|]. eapply Z.le_trans; [apply IH|]. rewrite slen_cons. lia.
Qed.
Lemma digits_some base : forall fuel n acc, acc <> EmptyString -> digits fuel base n acc <> EmptyString.
Proof. induction fuel as [|fuel IH]; intros n acc H; cbn [digits]; [exact H|]. destruct (n <? base); [discriminate|]. apply IH. discriminate. Qed.
Lemma digits_more base fuel n acc : (0 < fuel)%nat -> digits fuel base n acc <> EmptyString.
Proof. destruct fuel as [|fuel]; [lia|]. intros _. cbn [digits]. destruct (n <? base); [discriminate|]. apply digits_some. discriminate. Qed.
(** 20 digits hold 64 bits. *)
Lemma dec_ok z : long_ok z -> is_dec z (dec z).
Proof.
  unfold long_ok. intros H. assert (P : 2 ^ 64 < 10 ^ Z.of_nat 20) by reflexivity. assert (P2 : 2 ^ 63 < 10 ^ Z.of_nat 20) by reflexivity.
  unfold is_dec, dec. destruct (Z.ltb_spec z 0) as [N|N].
  - split; [discriminate|]. split; [lia|]. intros _. eexists. split; [reflexivity|]. split; [apply digits_more; lia|]. apply digits_read; [lia|lia|lia].
  - split; [apply digits_more; lia|]. split; [|lia]. intros _. apply digits_read; [lia|lia|lia].
Qed.
Lemma dec_len z : slen (dec z) <= 21.
Proof. unfold dec. destruct (z <? 0); [rewrite slen_cons|]; pose proof (digits_len 10 20 (- z) "") as A; pose proof (digits_len 10 20 z "") as B; change (slen "") with 0 in *; lia. Qed.
Lemma hexa_ok p : ptr_ok p -> is_hex p (hexa p).
Proof.
  unfold ptr_ok. intros H. assert (P : 2 ^ 64 = 16 ^ Z.of_nat 16) by reflexivity. unfold is_hex, hexa. destruct (Z.eqb_spec p 0) as [E|E]; [left; split; [exact E|reflexivity]|].
  right. split; [exact E|]. eexists. split; [reflexivity|]. split; [apply digits_more; lia|]. apply digits_read; [lia|lia|lia].
Qed.
Lemma hexa_len p : slen (hexa p) <= 18.
Proof. unfold hexa. destruct (p =? 0); [vm_compute; discriminate|]. rewrite slen_app. pose proof (digits_len 16 16 p "") as A. change (slen "") with 0 in *. change (slen "0x") with 2. lia. Qed.

(** ** Formats *)
Lemma vfmt_chr c f a : c <> "%"%char -> vfmt (String c f) a = match vfmt f a with Ok t => Ok (String c t) | UB => UB | Abort => Abort | OutOfFuel => OutOfFuel end.
Proof.
  intros H. destruct c as [[] [] [] [] [] [] [] []]; try (cbn [vfmt rbind]; reflexivity). exfalso. apply H. reflexivity.
Qed.
(** How much room a text needs at most. *)
Definition width (x : marg) : Z := match x with AStr s => slen s | APtr _ => 18 | _ => 21 end.
Fixpoint widths (a : list marg) : Z := match a with [] => 0 | x :: a => width x + widths a end.
Lemma widths_pos a : 0 <= widths a.
Proof. induction a as [|x a IH]; cbn [widths]; [lia|]. destruct x; cbn [width]; pose proof slen_pos; try lia. specialize (H s). lia. Qed.
Lemma vfmt_typed f a : typed f a -> exists t, vfmt f a = Ok t /\ says f a t /\ slen t <= slen f + widths a.
Proof.
  intros T. induction T as [a|c f a H T (t & E & S & L)|f a T (t & E & S & L)|s f a T (t & E & S & L)|z f a Z0 T (t & E & S & L)|z f a Z0 T (t & E & S & L)|k z f a K Z0 T (t & E & S & L)].
  - exists EmptyString. split; [reflexivity|]. split; [constructor|]. pose proof (widths_pos a). change (slen "") with 0. lia.
  - exists (String c t). split; [rewrite vfmt_chr by exact H; rewrite E; reflexivity|]. split; [constructor; assumption|]. rewrite !slen_cons. lia.
  - exists (String "%" t). split; [cbn [append vfmt]; rewrite E; reflexivity|]. split; [exact (says_pct f a t S)|]. rewrite slen_cons, slen_app. change (slen "%%") with 2. lia.
  - exists (s ++ t)%string. split; [cbn [append vfmt]; rewrite E; reflexivity|]. split; [constructor; assumption|]. rewrite !slen_app. change (slen "%s") with 2. cbn [widths width]. lia.
  - exists (dec z ++ t)%string. split; [cbn [append vfmt]; rewrite E; reflexivity|]. split; [constructor; [exact Z0|apply dec_ok; unfold int_ok, long_ok in *; lia|exact S]|].
    rewrite !slen_app. change (slen "%d") with 2. cbn [widths width]. pose proof (dec_len z). lia.
  - exists (hexa z ++ t)%string. split; [cbn [append vfmt]; rewrite E; reflexivity|]. split; [constructor; [exact Z0|apply hexa_ok; exact Z0|exact S]|].
    rewrite !slen_app. change (slen "%p") with 2. cbn [widths width]. pose proof (hexa_len z). lia.
  - exists (dec z ++ t)%string. split; [|split; [constructor; [exact K|exact Z0|apply dec_ok; exact Z0|exact S]|]].
    + destruct K as [<-|[<-|[<-|[]]]]; cbn [append vfmt]; rewrite E; reflexivity.
    + rewrite !slen_app. cbn [widths width]. pose proof (dec_len z). pose proof (slen_pos k). lia.
Qed.
Lemma vfmt_plain p : plain p = true -> forall f a, vfmt (p ++ f) a = match vfmt f a with Ok t => Ok (p ++ t)%string | UB => UB | Abort => Abort | OutOfFuel => OutOfFuel end.
Proof.
  induction p as [|c p IH]; intros P f a; [cbn [append]; destruct (vfmt f a); reflexivity|]. cbn [plain] in P. apply andb_true_iff in P as (P1 & P2). cbn [append].
  rewrite vfmt_chr by (intros ->; discriminate). rewrite IH by exact P2. destruct (vfmt f a); reflexivity.
Qed.
(** What follows a complete format is copied. *)
Lemma vfmt_app f a : typed f a -> forall q t, plain q = true -> vfmt f a = Ok t -> vfmt (f ++ q) a = Ok (t ++ q)%string.
Proof.
  intros T. induction T as [a|c f a H T IH|f a T IH|s f a T IH|z f a Z0 T IH|z f a Z0 T IH|k z f a K Z0 T IH]; intros q t Q.
  - cbn [vfmt]. intros E. injection E as <-. cbn [append]. rewrite <- (app_nil_s q) at 1. rewrite vfmt_plain by exact Q. cbn [vfmt]. rewrite app_nil_s. reflexivity.
  - rewrite vfmt_chr by exact H. cbn [append]. rewrite vfmt_chr by exact H. destruct (vfmt f a) as [u| | |] eqn:E; try discriminate. intros X. injection X as <-. rewrite (IH q u Q eq_refl). reflexivity.
  - cbn [append vfmt]. destruct (vfmt f a) as [u| | |] eqn:E; cbn [rbind]; try discriminate. intros X. injection X as <-. rewrite (IH q u Q eq_refl). reflexivity.
  - cbn [append vfmt]. destruct (vfmt f a) as [u| | |] eqn:E; cbn [rbind]; try discriminate. intros X. injection X as <-. rewrite (IH q u Q eq_refl). cbn [rbind]. rewrite app_assoc_s. reflexivity.
  - cbn [append vfmt]. destruct (vfmt f a) as [u| | |] eqn:E; cbn [rbind]; try discriminate. intros X. injection X as <-. rewrite (IH q u Q eq_refl). cbn [rbind]. rewrite app_assoc_s. reflexivity.
  - cbn [append vfmt]. destruct (vfmt f a) as [u| | |] eqn:E; cbn [rbind]; try discriminate. intros X. injection X as <-. rewrite (IH q u Q eq_refl). cbn [rbind]. rewrite app_assoc_s. reflexivity.
  - destruct K as [<-|[<-|[<-|[]]]]; cbn [append vfmt]; (destruct (vfmt f a) as [u| | |] eqn:E; cbn [rbind]; try discriminate); intros X; injection X as <-; rewrite (IH q u Q eq_refl); cbn [rbind]; rewrite app_assoc_s; reflexivity.
Qed.
(** ** The two passes *)
Lemma say_eq prefix w f a out : plain prefix = true -> say prefix w f a out =
  if slen prefix + slen f + 2 <=? 4096 then
    match vfmt (prefix ++ f ++ NL) a with Ok t => if slen t + 1 <=? 4096 then Ok (emit w out t) else UB | r => match r with Ok _ => UB | UB => UB | Abort => Abort | OutOfFuel => OutOfFuel end end
  else UB.
Proof.
  intros P. unfold say, sprint. rewrite vfmt_plain by exact P. assert (X : vfmt ("%s" ++ NL) [AStr f] = Ok (f ++ NL)%string) by (cbn; reflexivity). rewrite X. cbn [rbind].
  rewrite !slen_app. change (slen NL) with 1. replace (slen prefix + (slen f + 1) + 1) with (slen prefix + slen f + 2) by lia. destruct (_ <=? _); [|reflexivity]. cbn [rbind].
  destruct (vfmt _ a) as [t| | |]; cbn [rbind]; try reflexivity. destruct (_ <=? _); reflexivity.
Qed.
Lemma say_typed prefix w f a out : plain prefix = true -> all_written w -> typed f a -> exists t, says f a t /\ slen t <= slen f + widths a /\
  say prefix w f a out = if (slen prefix + slen f + 2 <=? 4096) && (slen prefix + slen t + 2 <=? 4096) then Ok (out ++ prefix ++ t ++ NL)%string else UB.
Proof.
  intros P W T. destruct (vfmt_typed f a T) as (t & E & S & L). exists t. split; [exact S|]. split; [exact L|]. rewrite say_eq by exact P. destruct (slen prefix + slen f + 2 <=? 4096); [|reflexivity]. cbn [andb].
  rewrite vfmt_plain by exact P. rewrite (vfmt_app f a T NL t eq_refl E). rewrite !slen_app. change (slen NL) with 1. replace (slen prefix + (slen t + 1) + 1) with (slen prefix + slen t + 2) by lia.
  destruct (_ <=? _); [|reflexivity]. rewrite (emit_all w out _ W). reflexivity.
Qed.
(** ** Where the types of the arguments are wrong *)
Lemma say_bad prefix w f a out : plain prefix = true -> vfmt (f ++ NL) a = UB -> say prefix w f a out = UB.
Proof. intros P E. rewrite say_eq by exact P. destruct (_ <=? _); [|reflexivity]. rewrite vfmt_plain by exact P. rewrite E. reflexivity. Qed.

Lemma plain_prefix : plain P_ERR = true /\ plain P_WARN = true /\ plain P_TRACE = true.
Proof. split; [reflexivity|split; reflexivity]. Qed.
(** ** The callers *)
Ltac ty := lazymatch goal with
  | |- typed (String "%" (String "%" _)) _ => apply ty_pct; ty
  | |- typed (String "%" (String "s" _)) _ => apply ty_str; ty
  | |- typed (String "%" (String "d" _)) _ => apply ty_int; [try assumption|ty]
  | |- typed (String "%" (String "p" _)) _ => apply ty_ptr; [try assumption|ty]
  | |- typed (String "%" (String "l" (String "d" _))) _ => apply (ty_long "%ld"); [cbn; tauto|try assumption|ty]
  | |- typed (String "%" (String "l" (String "u" _))) _ => apply (ty_long "%lu"); [cbn; tauto|try assumption|ty]
  | |- typed (String "%" (String "l" (String "l" (String "u" _)))) _ => apply (ty_long "%llu"); [cbn; tauto|try assumption|ty]
  | |- typed (String _ _) _ => apply ty_chr; [discriminate|ty]
  | |- typed EmptyString _ => apply ty_end
  | |- _ => idtac end.
Lemma whole prefix w f a out : plain prefix = true -> all_written w -> typed f a -> slen prefix + slen f + widths a + 2 <= 4096 ->
  exists t, says f a t /\ say prefix w f a out = Ok (out ++ prefix ++ t ++ NL)%string.
Proof.
  intros P W T L. destruct (say_typed prefix w f a out P W T) as (t & S & LT & E). exists t. split; [exact S|]. rewrite E. pose proof (widths_pos a).
  replace (slen prefix + slen f + 2 <=? 4096) with true by (symmetry; apply Z.leb_le; lia). replace (slen prefix + slen t + 2 <=? 4096) with true by (symmetry; apply Z.leb_le; lia). reflexivity.
Qed.
Lemma mb_range n : ptr_ok n -> long_ok (n / 1024 / 1024).
Proof. unfold ptr_ok, long_ok. intros H. rewrite Z.div_div by lia. split; [pose proof (Z.div_pos n (1024 * 1024)); lia|]. apply Z.div_lt_upper_bound; lia. Qed.
Lemma no_memory_whole w heap req out : all_written w -> ptr_ok heap -> ptr_ok req -> exists t,
  says "Out of memory, current limitation is %lu MB of virtual memory, request is %lu MB." [ALong (heap / 1024 / 1024); ALong (req / 1024 / 1024)] t /\
  m_no_memory w heap req out = Ok (out ++ P_ERR ++ t ++ NL)%string.
Proof.
  intros W H R. apply whole; [reflexivity|exact W| |vm_compute; discriminate]. pose proof (mb_range heap H). pose proof (mb_range req R). ty.
Qed.
Lemma dont_free_whole w ptr cnt out : all_written w -> ptr_ok ptr -> int_ok cnt -> exists t, says "Don't free the block %p (cnt = %d)." [APtr ptr; AInt cnt] t /\ m_dont_free w ptr cnt out = Ok (out ++ P_WARN ++ t ++ NL)%string.
Proof. intros W P C. apply whole; [reflexivity|exact W|ty|vm_compute; discriminate]. Qed.
Lemma bind_whole w node size addr out : all_written w -> int_ok node -> ptr_ok size -> ptr_ok addr ->
  exists t, says "numa node id : %d, size : %lu, ptr=%p" [AInt node; ALong size; APtr addr] t /\ m_bind w node size addr out = Ok (out ++ P_WARN ++ t ++ NL)%string.
Proof. intros W N S A. assert (L : long_ok size) by (unfold ptr_ok, long_ok in *; lia). apply whole; [reflexivity|exact W|ty|vm_compute; discriminate]. Qed.
Lemma trace_whole w t out : all_written w -> trace_ok t -> exists f x, convs f = List.length (trace_values t) /\ says f (trace_values t) x /\ m_trace w t out = Ok (out ++ P_TRACE ++ x ++ NL)%string.
Proof.
  intros W H. destruct t; cbn [trace_ok m_trace] in *; [destruct H as (H1 & H2)|destruct H as (H1 & H2 & H3)|destruct H as (H1 & H2)|destruct H as (H1 & H2 & H3 & H4)|destruct H as (H1 & H2)|contradiction];
    match goal with |- exists _ _, _ /\ _ /\ say ?p ?w ?f ?a ?o = _ => assert (T : typed f a) by ty; destruct (whole p w f a o eq_refl W T) as (x & S & E); [vm_compute; discriminate|exists f, x; split; [reflexivity|split; [exact S|exact E]]] end.
Qed.
Lemma name_fits pid : 0 <= pid < 2 ^ 31 -> exists d, is_dec pid d /\ trace_name pid = Ok ("alloc-trace-" ++ d ++ ".txt")%string.
Proof.
  intros H. exists (dec pid). split; [apply dec_ok; unfold long_ok; lia|]. unfold trace_name, sprint. assert (E : vfmt "alloc-trace-%d.txt" [AInt pid] = Ok ("alloc-trace-" ++ dec pid ++ ".txt")%string) by reflexivity.
  rewrite E. cbn [rbind]. rewrite !slen_app. assert (L : slen (dec pid) <= 21) by apply dec_len. change (slen "alloc-trace-") with 12. change (slen ".txt") with 4. destruct (Z.leb_spec (12 + (slen (dec pid) + 4) + 1) 38); [reflexivity|lia].
Qed.
(** The table. *)
Definition fits (s : msite) : bool := (slen (ms_file s) + slen (ms_cond s) + slen (ms_msg s) <=? 300) && (0 <=? ms_line s) && (ms_line s <? 10000).
Lemma all_fit : forallb fits msites = true.
Proof. vm_compute. reflexivity. Qed.
Lemma vfmt_warn file line m a : vfmt (F_WARN ++ NL) (AStr file :: AInt line :: AStr m :: a) = Ok ("Warning at " ++ file ++ "!" ++ dec line ++ NL ++ m ++ NL ++ NL)%string.
Proof. cbn. reflexivity. Qed.
Lemma vfmt_fatal file line m a : vfmt (F_FATAL ++ NL) (AStr file :: AInt line :: AStr m :: a) = Ok ("Fatal error at " ++ file ++ "!" ++ dec line ++ NL ++ m ++ NL ++ NL)%string.
Proof. cbn. reflexivity. Qed.
Lemma vfmt_assume file line c m a : vfmt (F_ASSUME ++ NL) (AStr file :: AInt line :: AStr c :: AStr m :: a) = Ok ("Error at " ++ file ++ "!" ++ dec line ++ NL ++ c ++ NL ++ m ++ NL ++ NL)%string.
Proof. cbn. reflexivity. Qed.
Lemma site_text w dir s a out : all_written w -> m_site w dir s a out = if slen (wanted dir s (dec (ms_line s)) (ms_msg s)) + 1 <=? 4096 then Ok (out ++ wanted dir s (dec (ms_line s)) (ms_msg s))%string else UB.
Proof.
  intros W. destruct s as [k file line c m]. unfold m_site, wanted. cbn [ms_kind ms_file ms_line ms_cond ms_msg]. destruct k; unfold m_warning, m_fatal, m_assume, m_pwarning, m_perror;
    rewrite say_eq by reflexivity; (replace (slen _ + slen _ + 2 <=? 4096) with true by reflexivity); rewrite vfmt_plain by reflexivity;
    [rewrite vfmt_warn|rewrite vfmt_fatal|rewrite vfmt_assume]; rewrite (emit_all w out _ W); rewrite ?app_assoc_s; cbn [append]; reflexivity.
Qed.
Lemma site_whole w dir s a out : all_written w -> In s msites -> slen dir <= 3600 ->
  exists d, is_dec (ms_line s) d /\ m_site w dir s a out = Ok (out ++ wanted dir s d (ms_msg s))%string.
Proof.
  intros W I D. exists (dec (ms_line s)). pose proof (proj1 (forallb_forall fits msites) all_fit s I) as F. unfold fits in F. apply andb_true_iff in F as (F & F3). apply andb_true_iff in F as (F1 & F2).
  apply Z.leb_le in F1, F2. apply Z.ltb_lt in F3. split; [apply dec_ok; unfold long_ok; lia|]. rewrite (site_text w dir s a out W).
  assert (L : slen (wanted dir s (dec (ms_line s)) (ms_msg s)) + 1 <= 4096).
  { unfold wanted. rewrite !slen_app. pose proof (dec_len (ms_line s)). pose proof (slen_pos (ms_cond s)). destruct (ms_kind s); rewrite ?slen_app; change (slen NL) with 1; change (slen "!") with 1; change (slen "") with 0;
      [change (slen P_WARN) with 21; change (slen "Warning at ") with 11|change (slen P_ERR) with 19; change (slen "Fatal error at ") with 15|change (slen P_ERR) with 19; change (slen "Error at ") with 9]; lia. }
  destruct (Z.leb_spec (slen (wanted dir s (dec (ms_line s)) (ms_msg s)) + 1) 4096); [reflexivity|lia].
Qed.
Lemma plain_says m a : plain m = true -> says m a m.
Proof. induction m as [|c m IH]; intros P; [constructor|]. cbn [plain] in P. apply andb_true_iff in P as (P1 & P2). constructor; [intros ->; discriminate|exact (IH P2)]. Qed.
(** The message of the caller of numa_check. *)
Lemma message_eq w fatal m out : all_written w -> m_message w fatal m out =
  if slen (if fatal then P_ERR else P_WARN) + slen m + 3 <=? 4096 then Ok (out ++ (if fatal then P_ERR else P_WARN) ++ m ++ NL ++ NL)%string else UB.
Proof.
  intros W. unfold m_message. destruct fatal; rewrite say_eq by reflexivity; (replace (slen _ + slen _ + 2 <=? 4096) with true by reflexivity); rewrite vfmt_plain by reflexivity;
    (assert (X : vfmt (("%s" ++ NL) ++ NL) [AStr m] = Ok (m ++ NL ++ NL)%string) by reflexivity); rewrite X; rewrite !slen_app; change (slen NL) with 1;
    [replace (slen P_ERR + (slen m + (1 + 1)) + 1) with (slen P_ERR + slen m + 3) by lia|replace (slen P_WARN + (slen m + (1 + 1)) + 1) with (slen P_WARN + slen m + 3) by lia];
    rewrite (emit_all w out _ W); reflexivity.
Qed.
Lemma ratio_ub w fatal file line minr node out : m_ratio w fatal file line minr node out = UB.
Proof. unfold m_ratio. destruct fatal; apply say_bad; reflexivity. Qed.
Lemma realloc_ub w p old n out : m_trace w (TReal p old n) out = UB.
Proof. cbn [m_trace]. apply say_bad; reflexivity. Qed.
(** [write] is called once, whatever it takes. *)
Lemma once prefix w f a out msg : say prefix (fun n => n) f a out = Ok (out ++ msg)%string -> say prefix w f a out = Ok (out ++ substring 0 (Z.to_nat (Z.min (w (slen msg)) (slen msg))) msg)%string.
Proof.
  unfold say. destruct (sprint 4096 _ [AStr f]) as [tmp| | |]; cbn [rbind]; try discriminate. destruct (sprint 4096 tmp a) as [t| | |]; cbn [rbind]; try discriminate.
  rewrite emit_all by (intros n _; reflexivity). intros H. injection H as H. assert (E : t = msg). { clear - H. induction out as [|c out IH]; [exact H|]. cbn [append] in H. injection H as H. exact (IH H). }
  subst msg. reflexivity.
Qed.
Lemma same_values w dir s a b out : ms_kind s <> KWarn -> all_written w -> m_site w dir s a out = m_site w dir s b out.
Proof. intros _ W. rewrite !(site_text w dir s _ out W). reflexivity. Qed.
(** Two pointers have two texts. *)
Lemma hex_inj p q s : is_hex p s -> is_hex q s -> p = q.
Proof.
  intros [(-> & ->)|(P & r & -> & R0 & R)] [(-> & E)|(Q & r' & E & R0' & R')]; try reflexivity; try discriminate. cbn [append] in E. injection E as <-. rewrite R in R'. injection R' as <-. reflexivity.
Qed.
Fixpoint untilc (c : ascii) (s : string) : string := match s with EmptyString => EmptyString | String x s => if Ascii.eqb x c then EmptyString else String x (untilc c s) end.
Lemma dval_not c d : dval c = Some d -> Ascii.eqb c ")" = false.
Proof. intros H. destruct (Ascii.eqb_spec c ")") as [->|_]; [discriminate|reflexivity]. Qed.
Lemma until_digits base r : forall acc v f, reads base acc r = Some v -> untilc ")" (r ++ String ")" f) = r.
Proof.
  induction r as [|c r IH]; intros acc v f H; [reflexivity|]. cbn [reads] in H. destruct (dval c) as [d|] eqn:D; [|discriminate]. destruct (d <? base); [|discriminate].
  cbn [append untilc]. rewrite (dval_not c d D). rewrite (IH _ _ f H). reflexivity.
Qed.
Lemma after_app a b c d : is_hex a b -> is_hex c d -> forall t u, (b ++ String ")" t = d ++ String ")" u)%string -> a = c.
Proof.
  intros [(-> & ->)|(P & r & -> & R0 & R)] [(-> & ->)|(Q & r' & -> & R0' & R')] t u E; try reflexivity; cbn [append] in E; try discriminate.
  injection E as E. pose proof (until_digits 16 r 0 a t R) as X. pose proof (until_digits 16 r' 0 c u R') as Y. rewrite E, Y in X. subst r'. rewrite R in R'. injection R' as <-. reflexivity.
Qed.
Lemma says_chr_inv c f a t : c <> "%"%char -> says (String c f) a t -> exists t', t = String c t' /\ says f a t'.
Proof.
  intros N H. remember (String c f) as g eqn:G. destruct H as [a|c0 f0 a t0 N0 H|f0 a t0 H|s f0 a t0 H|z s f0 a t0 Z0 D H|z s f0 a t0 Z0 D H|k z s f0 a t0 K Z0 D H]; cbn [append] in G; try discriminate;
    try (injection G; intros; subst; contradiction).
  - injection G as -> ->. exists t0. split; [reflexivity|exact H].
  - destruct K as [<-|[<-|[<-|[]]]]; cbn [append] in G; injection G as G1 _; subst c; contradiction.
Qed.
Lemma says_pre p f a t : plain p = true -> says (p ++ f) a t -> exists t', t = (p ++ t')%string /\ says f a t'.
Proof.
  revert t. induction p as [|c p IH]; intros t P H; [exists t; split; [reflexivity|exact H]|]. cbn [plain] in P. apply andb_true_iff in P as (P1 & P2). cbn [append] in H.
  apply says_chr_inv in H; [|intros ->; discriminate]. destruct H as (t' & -> & H). destruct (IH t' P2 H) as (t2 & -> & H2). exists t2. split; [reflexivity|exact H2].
Qed.
Lemma says_ptr_inv p f t : says ("%p" ++ f) [APtr p] t -> exists s t', t = (s ++ t')%string /\ is_hex p s /\ says f [] t'.
Proof.
  intros H. remember ("%p" ++ f)%string as g eqn:G. remember [APtr p] as l eqn:L. destruct H as [a|c0 f0 a t0 N0 H|f0 a t0 H|s f0 a t0 H|z s f0 a t0 Z0 D H|z s f0 a t0 Z0 D H|k z s f0 a t0 K Z0 D H]; cbn [append] in G; try discriminate.
  - injection G as -> _. contradiction.
  - injection G as ->. injection L as -> ->. exists s, t0. split; [reflexivity|]. split; [exact D|exact H].
Qed.
Lemma free_differ p q t u : p <> q -> says "Allocator error on free(%p), the address you provide is not managed by this memory allocator." [APtr p] t ->
  says "Allocator error on free(%p), the address you provide is not managed by this memory allocator." [APtr q] u -> t <> u.
Proof.
  intros N A B ->. apply N. change "Allocator error on free(%p), the address you provide is not managed by this memory allocator."%string with ("Allocator error on free(" ++ "%p" ++ String ")" ", the address you provide is not managed by this memory allocator.")%string in A, B.
  apply says_pre in A; [|reflexivity]. apply says_pre in B; [|reflexivity]. destruct A as (t1 & E1 & A). destruct B as (t2 & E2 & B). rewrite E1 in E2. cbn [append] in E2. injection E2 as E2. subst t2.
  apply says_ptr_inv in A. apply says_ptr_inv in B. destruct A as (s & t3 & -> & H1 & A). destruct B as (s' & t4 & E & H2 & B).
  apply says_chr_inv in A; [|discriminate]. apply says_chr_inv in B; [|discriminate]. destruct A as (t5 & -> & _). destruct B as (t6 & -> & _). exact (after_app p s q s' H1 H2 t5 t6 E).
Qed.
