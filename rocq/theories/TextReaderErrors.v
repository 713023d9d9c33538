(** What the text reader can raise. *)
From Verif Require Import Base BaseFacts CoreModel BinReaderModel SymbolsModel TextNumbers TextWriterModel TextReaderModel
  TextReaderFacts TextReaderNest.
Local Open Scope Z_scope.

(** Exceptions raised by handlers on some input; [OutOfFuel] stands for a loop that never ends. *)
Definition known_exception (e : exc) : Prop :=
  In e [IonException; TypeError; ValueError; AttributeError; AssertionError; UnicodeDecodeError; StructError; KeyError].
Definition safe {A} (r : res A) : Prop := match r with Ok _ => True | Err e => known_exception e end.

Lemma safe_ok {A} (a : A) : safe (Ok a). Proof. exact Logic.I. Qed.
Lemma safe_illegal {A} : safe (@illegal A). Proof. cbn. unfold known_exception. cbn. auto. Qed.
Lemma safe_bind {A B} (x : res A) (f : A -> res B) : safe x -> (forall a, safe (f a)) -> safe (let* a := x in f a).
Proof. intros Hx H. destruct x; cbn [bind]; auto. Qed.
Lemma safe_if {A} (b : bool) (x y : res A) : safe x -> safe y -> safe (if b then x else y).
Proof. destruct b; auto. Qed.
Lemma safe_go k h : safe (go k h). Proof. exact Logic.I. Qed.
Lemma safe_back k : safe (back k). Proof. exact Logic.I. Qed.
Lemma safe_emits k e : safe (emits k e). Proof. exact Logic.I. Qed.
Lemma safe_emits_then k e h k' : safe (emits_then k e h k'). Proof. exact Logic.I. Qed.

Create HintDb safe.
Ltac sf :=
  cbv zeta;
  repeat first
  [ apply safe_ok | apply safe_illegal | apply safe_go | apply safe_back | apply safe_emits | apply safe_emits_then
  | solve [auto 1 with safe nocore]
  | solve [ unfold safe, known_exception; simpl; tauto ]
  | (apply safe_bind; [|let a := fresh "a" in intros a]) | apply safe_if
  | match goal with |- safe (match ?x with _ => _ end) => destruct x end ].
Lemma safe_set_unicode q k : safe (set_unicode q k). Proof. unfold set_unicode. sf. Qed.
Lemma safe_set_annotation k : safe (set_annotation k). Proof. unfold set_annotation. sf. Qed.
Lemma safe_set_field_name k : safe (set_field_name k). Proof. unfold set_field_name. sf. Qed.
Lemma safe_symbol_event v k s : safe (symbol_event v k s). Proof. unfold symbol_event. sf. Qed.
Lemma safe_unread v c : safe (unread v c). Proof. unfold unread. destruct c; [sf|]. destruct (e_unicode v); sf. Qed.
#[export] Hint Resolve safe_set_unicode safe_set_annotation safe_set_field_name safe_symbol_event safe_unread : safe.
Lemma safe_putting_back v c r : safe r -> safe (putting_back v c r).
Proof. intros H. unfold putting_back. apply safe_bind; [apply safe_unread|]. intros u. apply safe_bind; [exact H|]. sf. intros. sf. Qed.
Lemma safe_start_numeric n c k : safe (start_numeric n c k). Proof. unfold start_numeric. sf. Qed.
Lemma safe_start_ts c k : safe (start_ts c k). Proof. unfold start_ts. sf. Qed.
Lemma safe_start_comment c w k : safe (start_comment c w k). Proof. unfold start_comment. sf. Qed.
#[export] Hint Resolve safe_putting_back safe_start_numeric safe_start_ts safe_start_comment : safe.
Lemma safe_number_end v c k r : safe (number_end v c k r). Proof. unfold number_end. sf. Qed.
#[export] Hint Resolve safe_number_end : safe.
Lemma safe_send_numeric v n p c k : safe (send_numeric v n p c k). Proof. unfold send_numeric. sf. Qed.
Lemma safe_send_num v c k : safe (send_num v c k). Proof. unfold send_num. sf. Qed.
Lemma safe_start_zero c k : safe (start_zero c k). Proof. unfold start_zero. sf. Qed.
Lemma safe_send_zero v c k : safe (send_zero v c k). Proof. unfold send_zero. sf. Qed.
Lemma safe_send_ts_zero c k : safe (send_ts_zero c k). Proof. unfold send_ts_zero. sf. Qed.
Lemma safe_send_ts v p s n t b c k : safe (send_ts v p s n t b c k). Proof. unfold send_ts. sf. Qed.
Lemma safe_start_oper c k : safe (start_oper c k). Proof. unfold start_oper. sf. Qed.
Lemma safe_symbol_end v c k f s : safe (symbol_end v c k f s). Proof. unfold symbol_end. sf. Qed.
Lemma safe_start_unquoted v c k f : safe (start_unquoted v c k f). Proof. unfold start_unquoted. sf. Qed.
#[export] Hint Resolve safe_send_numeric safe_send_num safe_start_zero safe_send_zero safe_send_ts_zero safe_send_ts safe_start_oper
  safe_symbol_end safe_start_unquoted : safe.
Lemma safe_go_oper c k : safe (go_oper c k). Proof. unfold go_oper. sf. Qed.
Lemma safe_go_unquoted v c k f : safe (go_unquoted v c k f). Proof. unfold go_unquoted. sf. Qed.
#[export] Hint Resolve safe_go_oper safe_go_unquoted : safe.
Lemma safe_send_unquoted v p f c k : safe (send_unquoted v p f c k). Proof. unfold send_unquoted. sf. Qed.
Lemma safe_start_dollar v k f : safe (start_dollar v k f). Proof. unfold start_dollar. sf. Qed.
Lemma safe_send_dollar v p i co s m po f c k : safe (send_dollar v p i co s m po f c k). Proof. unfold send_dollar. sf. Qed.
Lemma safe_send_null v s c k : safe (send_null v s c k). Proof. unfold send_null. sf. Qed.
Lemma safe_start_kw v c k f : safe (start_kw v c k f). Proof. unfold start_kw. sf. Qed.
Lemma safe_check_keyword v s t x d m f c k : safe (check_keyword v s t x d m f c k). Proof. unfold check_keyword. sf. Qed.
#[export] Hint Resolve safe_send_unquoted safe_start_dollar safe_send_dollar safe_send_null safe_start_kw safe_check_keyword : safe.
Lemma safe_send_kw v a b t f m i c k : safe (send_kw v a b t f m i c k). Proof. unfold send_kw. sf. Qed.
Lemma safe_send_inf v n m c k : safe (send_inf v n m c k). Proof. unfold send_inf. sf. Qed.
Lemma safe_start_long k f : safe (start_long k f). Proof. unfold start_long. sf. Qed.
Lemma safe_start_string k f : safe (start_string k f). Proof. unfold start_string. sf. Qed.
Lemma safe_start_quoted_symbol c k f : safe (start_quoted_symbol c k f). Proof. unfold start_quoted_symbol. sf. Qed.
Lemma safe_start_blob c k : safe (start_blob c k). Proof. unfold start_blob. sf. Qed.
Lemma safe_start_clob_end c k : safe (start_clob_end c k). Proof. unfold start_clob_end. sf. Qed.
#[export] Hint Resolve safe_send_kw safe_send_inf safe_start_long safe_start_string safe_start_quoted_symbol safe_start_blob
  safe_start_clob_end : safe.
Lemma safe_send_long v q d b f c k : safe (send_long v q d b f c k). Proof. unfold send_long. sf. Qed.
Lemma safe_send_string v b f c k : safe (send_string v b f c k). Proof. unfold send_string. sf. Qed.
Lemma safe_send_quoted_symbol v f c k : safe (send_quoted_symbol v f c k). Proof. unfold send_quoted_symbol. sf. Qed.
Lemma safe_send_quote1 f c k : safe (send_quote1 f c k). Proof. unfold send_quote1. sf. Qed.
Lemma safe_send_quote2 f c k : safe (send_quote2 f c k). Proof. unfold send_quote2. sf. Qed.
Lemma safe_send_lob0 q c k : safe (send_lob0 q c k). Proof. unfold send_lob0. sf. Qed.
Lemma safe_send_blob v p d q c k : safe (send_blob v p d q c k). Proof. unfold send_blob. sf. Qed.
Lemma safe_send_clob v p c k : safe (send_clob v p c k). Proof. unfold send_clob. sf. Qed.
Lemma safe_comment_done w k : safe (comment_done w k). Proof. unfold comment_done. sf. Qed.
#[export] Hint Resolve safe_send_long safe_send_string safe_send_quoted_symbol safe_send_quote1 safe_send_quote2 safe_send_lob0
  safe_send_blob safe_send_clob safe_comment_done : safe.
Lemma safe_send v h c k : safe (send v h c k).
Proof.
  destruct h; cbn [send]; cbv zeta; try (apply safe_if); try (apply safe_putting_back); sf.
Qed.
Lemma safe_start_field v c k : safe (start_field v c k). Proof. unfold start_field. sf. Qed.
Lemma safe_start_value v c k : safe (start_value v c k). Proof. unfold start_value. sf. Qed.
(* The escape sequences that [cp_step] completes. *)
Lemma decode_some esc cs : decode_escape esc = Ok cs -> cs <> [].
Proof.
  unfold decode_escape. intros E H. subst cs.
  repeat match type of E with
  | (if ?x then _ else _) = _ => destruct x
  | (match ?x with _ => _ end) = _ => destruct x
  end; discriminate.
Qed.
Lemma safe_decode_escape esc : safe (decode_escape esc). Proof. unfold decode_escape. sf. Qed.
Lemma safe_escape_done esc low : safe (escape_done esc low).
Proof.
  unfold escape_done. pose proof (safe_decode_escape esc) as S. destruct (decode_escape esc) as [cs|e] eqn:E; [|exact S]. cbn [bind].
  apply decode_some in E. destruct cs as [|h r]; [congruence|]. sf.
Qed.
#[export] Hint Resolve safe_send safe_start_field safe_start_value safe_escape_done : safe.
Lemma safe_cp_step u s z : safe (cp_step u s z). Proof. unfold cp_step. sf. Qed.
Lemma safe_pending_value v s : safe (pending_value v s). Proof. unfold pending_value. sf. Qed.
Lemma safe_after_event s k ev comp c : safe (after_event s k ev comp c). Proof. unfold after_event. sf. Qed.
#[export] Hint Resolve safe_cp_step safe_pending_value safe_after_event : safe.
Lemma safe_handled s c a : safe (handled s c a). Proof. unfold handled. sf. Qed.
#[export] Hint Resolve safe_handled : safe.
Lemma safe_top uni s oc : safe (top uni s oc). Proof. unfold top. sf. Qed.
Lemma safe_take uni s k c : safe (take uni s k c). Proof. unfold take. sf. Qed.
#[export] Hint Resolve safe_top safe_take : safe.
Lemma safe_delegate uni s q d : safe (delegate uni s q d). Proof. unfold delegate. sf. Qed.
