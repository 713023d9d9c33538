(** Reading everything: sessions of NEXT requests only. *)
From Verif Require Import Base BaseFacts BufferModel CoreModel BinReaderModel BinReaderSpec BinReaderSession BinFormat BinFormatFacts
  SymbolsModel SymbolsProofs ManagedModel BinReaderSession Cursor ManagedSpec ManagedReaderFacts ManagedReaderProofs.
Local Open Scope Z_scope.

Definition remaining {A} (c : cursor A) : list A :=
  flat_map flatten (c_here c) ++ flat_map (fun o => fst o :: flat_map flatten (snd o)) (c_open c).
Lemma remaining_next {A} (c : cursor A) :
  match cursor_next c with Some (e, c') => remaining c = e :: remaining c' | None => remaining c = [] end.
Proof.
  destruct c as [here opens]. unfold cursor_next, remaining. cbn [c_here c_open]. destruct here as [|[e|s ks f] r].
  - destruct opens as [|[f r] o]; reflexivity.
  - reflexivity.
  - cbn [flat_map flatten app fst snd c_here c_open]. rewrite <- !app_assoc. reflexivity.
Qed.
Lemma all_next {A} fin n : forall (c : cursor A),
  cursor_session fin c (repeat DNext (length (remaining c) + n)) = (remaining c, match n with O => SMore | S _ => fin end).
Proof.
  intros c. remember (remaining c) as l eqn:E. revert c E. induction l as [|e l IH]; intros c E.
  - cbn [length plus]. destruct n as [|n]; [reflexivity|]. cbn [repeat cursor_session]. pose proof (remaining_next c) as R.
    destruct (cursor_next c) as [[e c']|]; [congruence|reflexivity].
  - cbn [length plus repeat cursor_session]. pose proof (remaining_next c) as R. destruct (cursor_next c) as [[e' c']|]; [|congruence].
    rewrite R in E. injection E as -> E. rewrite (IH c' E). reflexivity.
Qed.
Lemma next_legal {A} n : forall (c : cursor A), legal c (repeat DNext n) = true.
Proof. induction n as [|n IH]; intros c; [reflexivity|]. cbn [repeat legal]. destruct (cursor_next c) as [[e c']|]; auto. Qed.
Lemma all_next_top {A} fin n (us : list (etree A)) :
  cursor_session fin (mkcur us []) (repeat DNext (length (flat_map flatten us) + n)) = (flat_map flatten us, match n with O => SMore | S _ => fin end).
Proof. pose proof (all_next fin n (mkcur us [])) as H. unfold remaining in H. cbn [c_here c_open flat_map] in H. rewrite app_nil_r in H. exact H. Qed.

(** An empty input. *)
Lemma empty_input cat fuel reqs n : (2 < fuel)%nat -> reqs = repeat DNext n ->
  msession fuel cat mreader_new [] reqs = ([], match n with O => SMore | S _ => SEnd end).
Proof.
  intros F ->. destruct n as [|n]; [reflexivity|]. destruct fuel as [|[|[|fuel]]]; try lia. reflexivity.
Qed.

(** The user's view of a stream never contains a system value. *)
Lemma view_user cat ts : forall table us fin, user_view cat table ts = (us, fin) ->
  Forall (fun u => exists t table', u = tree_map (fun e => mkme e table') t /\ In t ts /\ system_value cat table' t = Ok None) us.
Proof.
  induction ts as [|t ts IH]; intros table us fin; cbn [user_view].
  - intros [= <- <-]. constructor.
  - destruct (system_value cat table t) as [[table'|]|e] eqn:SV.
    + intros H. eapply Forall_impl; [|apply (IH _ _ _ H)]. intros u (t' & tb & -> & I & S). exists t', tb. split; [reflexivity|]. split; [right; exact I|exact S].
    + destruct (user_view cat table ts) as [us' fin'] eqn:UV. intros [= <- <-]. constructor.
      * exists t, table. split; [reflexivity|]. split; [left; reflexivity|exact SV].
      * eapply Forall_impl; [|apply (IH _ _ _ UV)]. intros u (t' & tb & -> & I & S). exists t', tb. split; [reflexivity|]. split; [right; exact I|exact S].
    + intros [= <- <-]. constructor.
Qed.
