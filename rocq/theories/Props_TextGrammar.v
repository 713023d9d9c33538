(** C63: the text reader reads the Ion text format, given as a grammar in TextGrammar.v. *)
From Coq Require Import String.
From Verif Require Import Base BaseFacts CoreModel BinWriterModel BinReaderModel SymbolsModel TextNumbers TextWriterModel TextReaderModel TextReaderChunks.
From Verif Require Import TextRoundTripSpec TextGrammar TextReadValues.
Local Open Scope Z_scope.

(** Every text of the grammar, in every cutting into pieces, as octets or as text: NEXT requests return
    the events of the grammar, in order, each as itself or with a thunk of its value, and then the
    end of the stream. *)
Theorem C63_reads_the_grammar uni l evs : document l evs -> exists evs', Forall2 answers evs evs' /\
  forall cs n, pieces cs -> concat cs = l -> (List.length evs < n)%nat -> text_session uni text_reader_new cs (repeat DNext n) = (evs', SEnd).
Proof. apply document_session. Qed.
(** The grammar gives a text one meaning. *)
Theorem C63_one_meaning l evs1 evs2 : document l evs1 -> document l evs2 -> evs1 = evs2.
Proof. apply document_unique. Qed.

(** A text of the grammar. *)
Definition sample : text := txt "/*x*/$ion_1_0 // hi" ++ [10] ++ txt " a::{b: [1_0,], 'c':(+ d)} ".
Definition sym (s : string) : token := text_symbol (txt s).
Definition sample_events : list event :=
  [marker_ev; start_ev TStruct None [sym "a"] 0; start_ev TList (Some (sym "b")) [] 1; scalar_ev TInt (Some (VInt 10)) None [] 2; end_ev TList 1;
   start_ev TSexp (Some (sym "c")) [] 1; scalar_ev TSymbol (Some (VSymbol (sym "+"))) None [] 2; scalar_ev TSymbol (Some (VSymbol (sym "d"))) None [] 2; end_ev TSexp 1;
   end_ev TStruct 0].
Lemma bare_letter c : 97 <= c <= 122 -> bare_symbol [c].
Proof. intros H. split; [exists c, []; split; [reflexivity|]; split; [unfold name_start; lia|constructor]|]. cbn [In]. intuition discriminate. Qed.
Lemma letter_name c : 97 <= c <= 122 -> plain_name [c] (text_symbol [c]).
Proof. intros H. apply name_bare; [now apply bare_letter|]. unfold like_sid. cbn. intros (ds & E & _). injection E as E _. lia. Qed.
Ltac blank_ := unfold blank; cbn; tauto.
Ltac unlike := intros (X & _); discriminate X.
Example C63_sample : document sample sample_events.
Proof.
  apply (document_of (txt "/*x*/") (txt "$ion_1_0 // hi" ++ [10] ++ txt " a::{b: [1_0,], 'c':(+ d)} ") sample_events).
  { apply (gap_block (txt "x") []); [|constructor]. intros u v E. apply (f_equal (@List.length Z)) in E. rewrite app_length in E. cbn in E. lia. }
  apply (stream_marker (txt " // hi" ++ [10; 32]) (txt "a::{b: [1_0,], 'c':(+ d)} ")); [exact Logic.I| |].
  { apply trailing_gap; [|split; [unfold blank; cbn; lia|cbn; lia]]. apply (gap_blank 32 (txt "// hi" ++ [10; 32])); [blank_|]. apply (gap_line (txt " hi") 10 [32]); [repeat constructor; cbn; lia|auto|]. apply gap_blank; [blank_|constructor]. }
  apply (stream_value (txt "a::{b: [1_0,], 'c':(+ d)} ") (tl sample_events) [] []); [|constructor].
  apply (value_struct Outside 0 None (txt "a::") [sym "a"] [] (txt "b: [1_0,], 'c':(+ d)} ") (removelast (tl (tl sample_events))) [32] []).
  { apply (annots_one (txt "a") (sym "a") [] [] [] []); [constructor; apply letter_name; cbn; lia|split; [constructor|constructor]|constructor|constructor]. }
  { constructor. }
  2: { apply trailing_gap; [apply gap_blank; [blank_|constructor]|exact Logic.I]. }
  apply (fields_more 1 (txt "b: ") (sym "b") (txt "[1_0,], 'c':(+ d)} ") [start_ev TList (Some (sym "b")) [] 1; scalar_ev TInt (Some (VInt 10)) None [] 2; end_ev TList 1] [32] (txt "'c':(+ d)} ")
    [start_ev TSexp (Some (sym "c")) [] 1; scalar_ev TSymbol (Some (VSymbol (sym "+"))) None [] 2; scalar_ev TSymbol (Some (VSymbol (sym "d"))) None [] 2; end_ev TSexp 1] [32]).
  - apply (field_name (txt "b") (sym "b") [] [32]); [constructor; apply letter_name; cbn; lia|split; [constructor|constructor]|repeat constructor; blank_].
  - apply (value_list InStruct 1 (Some (sym "b")) [] [] [] (txt "1_0,], 'c':(+ d)} ") [scalar_ev TInt (Some (VInt 10)) None [] 2] [] (txt ", 'c':(+ d)} ")); [constructor|constructor| |].
    + apply (items_more 2 (txt "1_0,], 'c':(+ d)} ") [scalar_ev TInt (Some (VInt 10)) None [] 2] [] (txt "], 'c':(+ d)} ") [] (txt ", 'c':(+ d)} ")); [|constructor|apply (items_end 2 (txt ", 'c':(+ d)} "))].
      apply (value_scalar InList 2 None [] [] (txt "1_0") TInt (Some (VInt 10)) after_number [] (txt ",], 'c':(+ d)} ")); [constructor| | | |unlike].
      * apply text_int. apply (int_ten false (txt "1_0") (txt "10")). right. split; [|cbn; lia]. apply (run_under digit 49 [48] [48]); [unfold digit; lia|]. constructor. unfold digit; lia.
      * cbn. unfold shuts. cbn. tauto.
      * apply trailing_gap; [constructor|]. split; [unfold blank; cbn; lia|cbn; lia].
    + apply trailing_gap; [constructor|]. split; [unfold blank; cbn; lia|cbn; lia].
  - apply gap_blank; [blank_|constructor].
  - apply (fields_last 1 (txt "'c':") (sym "c") (txt "(+ d)} ") [start_ev TSexp (Some (sym "c")) [] 1; scalar_ev TSymbol (Some (VSymbol (sym "+"))) None [] 2; scalar_ev TSymbol (Some (VSymbol (sym "d"))) None [] 2; end_ev TSexp 1] [32]).
    + apply (field_name (txt "'c'") (sym "c") [] []); [|split; [constructor|constructor]|constructor]. apply (name_quoted (txt "c") (txt "c")).
      apply (body_item false (short_raw 39) true [] (txt "c") (txt "c") [] []); [auto|apply item_raw; [split; cbn; lia|unfold scalar_value; cbn; lia|cbn; lia|cbn; lia]|cbn; lia|constructor].
    + apply (value_sexp InStruct 1 (Some (sym "c")) [] [] [] (txt "+ d)} ") [scalar_ev TSymbol (Some (VSymbol (sym "+"))) None [] 2; scalar_ev TSymbol (Some (VSymbol (sym "d"))) None [] 2] [] (txt "} ")); [constructor|constructor| |apply trailing_gap; [constructor|split; [unfold blank; cbn; lia|cbn; lia]]].
      apply (terms_more 2 (txt "+ d)} ") [scalar_ev TSymbol (Some (VSymbol (sym "+"))) None [] 2] (txt "d)} ") [scalar_ev TSymbol (Some (VSymbol (sym "d"))) None [] 2] (txt "} ")).
      * apply (value_scalar InSexp 2 None [] [] (txt "+") TSymbol (Some (VSymbol (sym "+"))) (after_operator (txt "+")) [32] (txt "d)} ")); [constructor|apply text_operator; [reflexivity|discriminate|repeat constructor; unfold operator; cbn; tauto]| |apply trailing_gap; [apply gap_blank; [blank_|constructor]|split; [unfold blank; cbn; lia|cbn; lia]]|unlike].
        cbn. unfold operator, digit. cbn. lia.
      * apply (terms_more 2 (txt "d)} ") [scalar_ev TSymbol (Some (VSymbol (sym "d"))) None [] 2] (txt ")} ") [] (txt "} ")); [|apply (terms_end 2 (txt "} "))].
        apply (value_scalar InSexp 2 None [] [] (txt "d") TSymbol (Some (VSymbol (sym "d"))) after_name [] (txt ")} ")); [constructor|apply text_plain_name, letter_name; cbn; lia| |apply trailing_gap; [constructor|split; [unfold blank; cbn; lia|cbn; lia]]|unlike].
        cbn. unfold shuts. cbn. tauto.
Qed.
(** Nothing but comments. *)
Example C63_only_comments : document (txt " // open") [].
Proof. apply (document_open [32] (txt "// open")); [apply gap_blank; [blank_|constructor]|]. exists (txt " open"). split; [reflexivity|]. repeat constructor; cbn; lia. Qed.

(** * What the grammar leaves out, because the reader deviates there *)
Definition reading (l : text) : list (evtype * option iontype * option scalar) * stop :=
  let '(evs, e) := text_session true text_reader_new [l] (repeat DNext 30) in
  (map (fun e => (ev_type e, ev_ion_type e, match ev_value e with EvLazy (Ok v) => Some v | EvVal v => Some v | _ => None end)) evs, e).
(** A comment between an annotation's colons or a field name's colon and the value: the character after
    the value is lost. *)
Example C63_comment_after_colons : snd (reading (txt "[a:: /*c*/ 1, 2]")) = SExc IonException.
Proof. vm_compute. reflexivity. Qed.
Example C63_comment_after_field_name : snd (reading (txt "{a: /*c*/ 1}")) = SExc IonException.
Proof. vm_compute. reflexivity. Qed.
(** Vertical tab and form feed are white space in Ion, but not directly after a number; after a keyword
    they make it a symbol. *)
Example C63_form_feed_after_number : snd (reading (txt "1" ++ [12] ++ txt "2")) = SExc IonException.
Proof. vm_compute. reflexivity. Qed.
Example C63_form_feed_after_keyword : reading (txt "true" ++ [12] ++ txt "2") = ([(EScalar, Some TSymbol, Some (VSymbol (sym "true"))); (EScalar, Some TInt, Some (VInt 2))], SEnd).
Proof. vm_compute. reflexivity. Qed.
(** A line comment that the end of the text ends, after an annotated symbol. *)
Example C63_open_comment_after_annotated : snd (reading (txt "a::b //c")) = SExc IonException.
Proof. vm_compute. reflexivity. Qed.
Example C63_open_comment_after_plain : reading (txt "b //c") = ([(EScalar, Some TSymbol, Some (VSymbol (sym "b")))], SEnd).
Proof. vm_compute. reflexivity. Qed.
(** A comment after [''] is read with escapes. *)
Example C63_comment_after_empty : reading (txt "'' /*\*/ 1") = ([], SExc IonException).
Proof. vm_compute. reflexivity. Qed.
(** A long string and then [''] as an annotation. *)
Example C63_empty_after_long : snd (reading (txt "'''a''' ''::1")) = SExc AttributeError.
Proof. vm_compute. reflexivity. Qed.
