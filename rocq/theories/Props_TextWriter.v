(** C42: [unicode_iter]; C48: the text writer and nesting. *)
From Coq Require Import String.
From Verif Require Import Base BaseFacts CoreModel BufferModel BinWriterModel SymbolsModel ManagedModel TextNumbers TextWriterModel.
Local Open Scope Z_scope.

(** * C42 *)

(** A [str] as UTF-16 sees it: a code point outside the surrogate range stands for itself, a high
    surrogate followed by a low one for a code point beyond 0xFFFF. *)
Definition high_surrogate (c : Z) : Prop := 0xD800 <= c <= 0xDBFF.
Definition low_surrogate (c : Z) : Prop := 0xDC00 <= c <= 0xDFFF.
Inductive stands_for : text -> list Z -> Prop :=
| sf_nil : stands_for [] []
| sf_one c s r : ~ high_surrogate c -> ~ low_surrogate c -> stands_for s r -> stands_for (c :: s) (c :: r)
| sf_pair h l s r : high_surrogate h -> low_surrogate l -> stands_for s r ->
    stands_for (h :: l :: s) (0x10000 + (h - 0xD800) * 0x400 + (l - 0xDC00) :: r).

(** [unicode_iter] yields exactly the code points the string stands for; a string with an unpaired
    surrogate stands for none, and raises ValueError. *)
Lemma unicode_iter_spec s : match unicode_iter s with Ok r => stands_for s r | Err e => e = ValueError /\ forall r, ~ stands_for s r end.
Proof.
  remember (List.length s) as n eqn:N. assert (H : (List.length s <= n)%nat) by lia. clear N. revert s H.
  induction n as [|n IH]; intros s H.
  - destruct s; [constructor|cbn in H; lia].
  - destruct s as [|c s]; [constructor|]. cbn [unicode_iter]. cbn [List.length] in H.
    destruct ((0xDC00 <=? c) && (c <=? 0xDFFF)) eqn:L.
    { split; [reflexivity|]. intros r X. inversion X; subst; unfold low_surrogate, high_surrogate in *; lia. }
    destruct ((0xD800 <=? c) && (c <=? 0xDBFF)) eqn:HI.
    + destruct s as [|l s]; [split; [reflexivity|]; intros r X; inversion X; subst; unfold high_surrogate in *; lia|].
      destruct ((l <? 0xDC00) || (0xDFFF <? l)) eqn:LO.
      { split; [reflexivity|]. intros r X. inversion X; subst; unfold low_surrogate, high_surrogate in *; lia. }
      cbn [List.length] in H. specialize (IH s ltac:(lia)). destruct (unicode_iter s) as [r|e]; cbn [bind].
      * rewrite Z.shiftl_mul_pow2 by lia. apply sf_pair; [unfold high_surrogate; lia|unfold low_surrogate; lia|exact IH].
      * destruct IH as [-> IH]. split; [reflexivity|]. intros r X. inversion X; subst; [unfold high_surrogate in *; lia|]. eapply IH; eassumption.
    + specialize (IH s ltac:(lia)). destruct (unicode_iter s) as [r|e]; cbn [bind].
      * apply sf_one; [unfold high_surrogate; lia|unfold low_surrogate; lia|exact IH].
      * destruct IH as [-> IH]. split; [reflexivity|]. intros r X. inversion X; subst; [eapply IH; eassumption|unfold high_surrogate in *; lia].
Qed.
Theorem C42_code_points : forall s r, unicode_iter s = Ok r <-> stands_for s r.
Proof.
  intros s r. pose proof (unicode_iter_spec s) as H. split; intros X.
  - rewrite X in H. exact H.
  - destruct (unicode_iter s) as [r'|e]; [|destruct H as [_ H]; elim (H r X)].
    f_equal. clear - H X. revert r X. induction H; intros q X; inversion X; subst; unfold high_surrogate, low_surrogate in *; try lia; f_equal; auto.
Qed.
Print Assumptions C42_code_points.
Theorem C42_unpaired : forall s, (forall r, ~ stands_for s r) -> unicode_iter s = Err ValueError.
Proof.
  intros s H. pose proof (unicode_iter_spec s) as X. destruct (unicode_iter s) as [r|e]; [elim (H r X)|destruct X as [-> _]; reflexivity].
Qed.
Print Assumptions C42_unpaired.
(** What is yielded are scalar values; a string of scalar values is yielded unchanged. *)
Theorem C42_scalar_values : forall s r, Forall (fun c => 0 <= c <= 0x10FFFF) s -> unicode_iter s = Ok r ->
  Forall (fun c => 0 <= c <= 0x10FFFF /\ ~ high_surrogate c /\ ~ low_surrogate c) r.
Proof.
  intros s r H X. apply C42_code_points in X. induction X as [|c s r A B X IH|h l s r A B X IH]; constructor.
  - inversion H; subst. auto.
  - inversion H; subst. auto.
  - unfold high_surrogate, low_surrogate in *. lia.
  - inversion H as [|? ? ? H']; subst. inversion H'; subst. auto.
Qed.
Print Assumptions C42_scalar_values.
Theorem C42_identity : forall s, Forall (fun c => ~ high_surrogate c /\ ~ low_surrogate c) s -> unicode_iter s = Ok s.
Proof. intros s H. apply C42_code_points. induction H as [|c s [A B] H IH]; constructor; auto. Qed.
Print Assumptions C42_identity.
Example C42_example : unicode_iter [0x61; 0xD83D; 0xDE00; 0x1F600] = Ok [0x61; 0x1F600; 0x1F600] /\
  unicode_iter [0x61; 0xDE00] = Err ValueError /\ unicode_iter [0xD83D] = Err ValueError /\ unicode_iter [0xD83D; 0x61] = Err ValueError.
Proof. repeat split. Qed.

(** * C48 *)

(** The containers open, innermost first; what each event needs of them and what it leaves. *)
Definition nests (open : list iontype) (e : uevent) : option (list iontype) :=
  match ue_type e with
  | EScalar => Some open
  | EContainerStart => match ue_ion_type e with
                       | Some t => if is_container t then Some (t :: open) else None
                       | None => None end
  | EContainerEnd => match open with _ :: o => Some o | [] => None end
  | EVersionMarker | EStreamEnd => match open with [] => Some [] | _ => None end
  | EIncomplete => None
  end.
(** A symbol that can be written: text without unpaired surrogates, or a symbol identifier. *)
Definition paired (s : text) : Prop := exists r, stands_for s r.
Definition symbol_fits (a : symarg) : Prop :=
  match a with
  | AText s => paired s
  | ATok t => match tk_text t with Some s => paired s | None => tk_sid t <> None end
  end.
(** A value that fits its type. *)
Definition fits (t : option iontype) (v : evalue) : Prop :=
  match ev_force v with
  | Err _ => False
  | Ok None => t <> None
  | Ok (Some v) =>
    match t, v with
    | Some TBool, _ => True
    | Some TInt, (VInt _ | VBool _) => True
    | Some TFloat, VFloat _ => True
    | Some TDecimal, VDecimal _ => True
    | Some TTimestamp, VTimestamp (TsPlain _) => True
    | Some TTimestamp, VTimestamp (TsStamp x) => ts_prec x <> None
    | Some TSymbol, VSymbol k => symbol_fits (ATok k)
    | Some TSymbol, VString s => symbol_fits (AText s)
    | Some TString, VString s => paired s
    | Some TClob, (VBytes _ | VString []) => True
    | Some TBlob, VBytes _ => True
    | _, _ => False
    end
  end.
Definition writable (open : list iontype) (e : uevent) : Prop :=
  begins_value (ue_type e) = true ->
  (match open with TStruct :: _ => match ue_field e with Some a => symbol_fits a | None => False end | _ => True end) /\
  Forall symbol_fits (ue_annot e) /\ (ue_type e = EScalar -> fits (ue_ion_type e) (ue_value e)).
Fixpoint accepted (open : list iontype) (es : list uevent) : option (list iontype) :=
  match es with
  | [] => Some open
  | e :: es' => match nests open e with Some o => accepted o es' | None => None end
  end.

Definition frames_of (fs : tstate) (open : list iontype) : Prop := map tf_type fs = map Some open ++ [None].

Lemma paired_iter s : paired s <-> exists r, unicode_iter s = Ok r.
Proof. unfold paired. split; intros [r H]; exists r; apply C42_code_points; exact H. Qed.
Lemma symbol_writes a suf : symbol_fits a <-> exists b, symbol_octets a suf = Ok b.
Proof.
  assert (T : forall s, paired s <-> exists b, symbol_text s suf = Ok b).
  { intros s. rewrite paired_iter. unfold symbol_text. split; intros [r H].
    - rewrite H. cbn [bind]. eauto.
    - destruct (unicode_iter s) as [x|]; [eauto|discriminate]. }
  destruct a as [k|s]; [|apply T]. cbn [symbol_fits symbol_octets]. destruct (tk_text k) as [s|]; [apply T|].
  destruct (tk_sid k); split; intros H; eauto; try congruence. destruct H; discriminate.
Qed.
Lemma annotations_write l : Forall symbol_fits l <-> snd (annotation_chunks l) = Ok tt.
Proof.
  induction l as [|a l IH]; [split; intros; [reflexivity|constructor]|]. cbn [annotation_chunks].
  pose proof (symbol_writes a [58; 58]) as S. destruct (symbol_octets a [58; 58]) as [b|x].
  - destruct (annotation_chunks l) as [cs r]. cbn [snd] in *. split.
    + intros F. inversion F; subst. apply IH. assumption.
    + intros E. constructor; [apply S; eauto|apply IH; exact E].
  - cbn [snd]. split; intros F; [|discriminate]. inversion F as [|? ? Fa]; subst. apply S in Fa. destruct Fa; discriminate.
Qed.
Lemma datetime_writes x : (exists b, datetime_text x = Ok b) <-> match x with TsPlain _ => True | TsStamp x => ts_prec x <> None end.
Proof.
  assert (D : forall d p f, exists b,
    (let year := year_text (dt_year d) in
    if negb (includes p PMonth) then Ok (year ++ [84])
    else let month := year ++ 45 :: two (dt_month d) in
    if negb (includes p PDay) then Ok (month ++ [84])
    else let day := month ++ 45 :: two (dt_day d) ++ [84] in
    if negb (includes p PMinute) then Ok day
    else let minute := day ++ two (dt_hour d) ++ 58 :: two (dt_minute d) in
    if negb (includes p PSecond) then Ok (minute ++ offset_text (dt_off d))
    else let second := minute ++ 58 :: two (dt_second d) in
    let frac := match f with
                | Some f => fraction_text f
                | None => 46 :: pad 6 (nat_str (dt_micro d))
                end in
    Ok (second ++ frac ++ offset_text (dt_off d))) = Ok b).
  { intros d p f. cbv zeta. repeat match goal with |- context [if ?b then _ else _] => destruct b end; eauto. }
  destruct x as [t|d]; unfold datetime_text.
  - destruct (ts_prec t) as [p|]; split; intros H; try congruence; [exact (D (ts_dt t) p (Some (ts_frac t)))|destruct H; discriminate].
  - split; intros _; [exact Logic.I|exact (D d PSecond None)].
Qed.
Lemma value_writes t v : fits t v <-> exists b, (let* v := ev_force v in text_scalar t v) = Ok b.
Proof.
  assert (F : forall P : Prop, (exists b : list Z, @Err (list Z) TypeError = Ok b) <-> (False /\ P)) by (intros P; split; [intros [b H]; discriminate|tauto]).
  unfold fits. destruct (ev_force v) as [[s|]|x]; cbn [bind]; [| |split; [tauto|intros [b H]; discriminate]].
  - assert (T : forall s, paired s <-> exists b, (let* cps := unicode_iter s in Ok (bytes_text cps (Some 34) [] [])) = Ok b).
    { intros q. rewrite paired_iter. split; intros [r H]; [rewrite H; cbn [bind]; eauto|destruct (unicode_iter q); [eauto|discriminate]]. }
    destruct t as [t|]; [|split; [tauto|intros [b H]; discriminate]].
    destruct t, s; cbn [text_scalar]; try (split; [tauto|intros [b0 H]; discriminate]); try (split; [intros _; eauto|tauto]); try (apply symbol_writes); try apply T.
    + destruct t; rewrite datetime_writes; reflexivity.
    + destruct s; split; intros H; eauto; try tauto. destruct H; discriminate.
  - destruct t; cbn [text_scalar]; split; intros H; eauto; try congruence. destruct H; discriminate.
Qed.

(** One event: it is accepted exactly if it nests and its parts can be written; COMPLETE is answered
    exactly when no container is open. *)
Theorem C48_step : forall indent fs open e, frames_of fs open ->
  ((exists fs' w, snd (text_write indent fs e) = Ok (fs', w)) <-> nests open e <> None /\ writable open e) /\
  (forall fs' w, snd (text_write indent fs e) = Ok (fs', w) ->
     exists open', nests open e = Some open' /\ frames_of fs' open' /\
       match w with Complete _ => open' = [] | NeedsInput _ => open' <> [] | HasPending _ => False end).
Proof.
  intros indent fs open e HF. destruct fs as [|f below]; [destruct open; discriminate HF|].
  unfold text_write.
  set (seps := separators indent (List.length below) f (ue_type e)). clearbody seps.
  (* the field name *)
  assert (NAME : snd (field_chunks indent f e) = Ok tt <->
    (begins_value (ue_type e) = true -> match open with TStruct :: _ => match ue_field e with Some a => symbol_fits a | None => False end | _ => True end)).
  { unfold field_chunks. destruct open as [|t o]; cbn [map app] in HF; injection HF as HF1 HF2; rewrite HF1; [cbn; tauto|].
    destruct t; cbn [snd]; try tauto. destruct (begins_value (ue_type e)); cbn [snd]; [|split; [discriminate|reflexivity]].
    destruct (ue_field e) as [a|]; cbn [snd]; [|split; [discriminate|tauto]].
    pose proof (symbol_writes a [58]) as S. destruct (symbol_octets a [58]); cbn [snd].
    - split; intros; [apply S; eauto|reflexivity].
    - split; [discriminate|]. intros X. specialize (X eq_refl). apply S in X. destruct X; discriminate. }
  assert (ANN : snd (if begins_value (ue_type e) then annotation_chunks (ue_annot e) else ([], Ok tt)) = Ok tt <->
    (begins_value (ue_type e) = true -> Forall symbol_fits (ue_annot e))).
  { destruct (begins_value (ue_type e)); [|split; [discriminate|reflexivity]]. rewrite <- annotations_write. tauto. }
  (* the event itself *)
  assert (CORE : ((exists fs' w, text_core (f :: below) e = Ok (fs', w)) <->
      nests open e <> None /\ (ue_type e = EScalar -> fits (ue_ion_type e) (ue_value e))) /\
    (forall fs' w, text_core (f :: below) e = Ok (fs', w) ->
      exists open', nests open e = Some open' /\ frames_of fs' open' /\
       match w with Complete _ => open' = [] | NeedsInput _ => open' <> [] | HasPending _ => False end)).
  { unfold text_core, nests, frames_of in *. cbn [map] in HF.
    assert (B : below = [] <-> open = []).
    { destruct open as [|t o], below as [|b bs]; cbn [map app] in HF; try discriminate HF; try tauto; [|split; discriminate].
      destruct o; discriminate HF. }
    destruct (ue_type e) eqn:TY.
    - split; [split; [intros (? & ? & X); discriminate|intros [X _]; congruence]|discriminate].
    - destruct below as [|b bs].
      + rewrite (proj1 B eq_refl) in *. split; [split; [intros _; split; [discriminate|discriminate]|eauto]|].
        intros fs' w X. injection X as <- <-. exists []. cbn. injection HF as ->. auto.
      + assert (open <> []) by (intros X; apply B in X; discriminate). destruct open; [congruence|]. split; [split; [intros (? & ? & X); discriminate|intros [X _]; congruence]|discriminate].
    - destruct below as [|b bs].
      + rewrite (proj1 B eq_refl) in *. split; [split; [intros _; split; [discriminate|discriminate]|eauto]|].
        intros fs' w X. injection X as <- <-. exists []. cbn. injection HF as ->. auto.
      + assert (open <> []) by (intros X; apply B in X; discriminate). destruct open; [congruence|]. split; [split; [intros (? & ? & X); discriminate|intros [X _]; congruence]|discriminate].
    - split.
      + split.
        * intros (fs' & w & X). split; [discriminate|]. intros _. apply value_writes.
          destruct (ev_force (ue_value e)) as [v|]; [|discriminate]. cbn [bind] in *. destruct (text_scalar (ue_ion_type e) v); [eauto|discriminate].
        * intros [_ X]. specialize (X eq_refl). apply value_writes in X. destruct X as [b X].
          destruct (ev_force (ue_value e)) as [v|]; [|discriminate]. cbn [bind] in *. rewrite X. cbn [bind]. destruct below; eauto.
      + intros fs' w X. exists open. split; [reflexivity|].
        destruct (ev_force (ue_value e)) as [v|]; [|discriminate]. cbn [bind] in X. destruct (text_scalar (ue_ion_type e) v); [|discriminate]. cbn [bind] in X.
        destruct below as [|b bs]; injection X as <- <-; cbn [map tf_type]; (split; [exact HF|]); [apply B; reflexivity|intros Y; apply B in Y; discriminate].
    - destruct (ue_ion_type e) as [t|]; [|split; [split; [intros (? & ? & X); discriminate|intros [X _]; congruence]|discriminate]].
      destruct (is_container t); [|split; [split; [intros (? & ? & X); discriminate|intros [X _]; congruence]|discriminate]].
      split; [split; [intros _; split; discriminate|eauto]|].
      intros fs' w X. injection X as <- <-. exists (t :: open). cbn [map tf_type app]. rewrite HF. repeat split. discriminate.
    - destruct below as [|b bs].
      + rewrite (proj1 B eq_refl) in *. split; [split; [intros (? & ? & X); discriminate|intros [X _]; congruence]|discriminate].
      + destruct open as [|t o]; [destruct (proj2 B eq_refl); discriminate|]. cbn [map app] in HF. injection HF as HF1 HF2. rewrite HF1.
        split; [split; [intros _; split; discriminate|eauto]|].
        intros fs' w X. injection X as <- <-. exists o. split; [reflexivity|]. split; [exact HF2|].
        destruct bs as [|b' bs]; destruct o as [|t' o]; try discriminate HF2; try reflexivity; try discriminate.
        destruct o; discriminate HF2. }
  destruct (field_chunks indent f e) as [names r1]. cbn [snd] in NAME.
  destruct (if begins_value (ue_type e) then annotation_chunks (ue_annot e) else ([], Ok tt)) as [ans r2]. cbn [snd] in ANN.
  destruct CORE as [C1 C2]. unfold writable.
  destruct r1 as [[]|x]; [|split].
  2:{ cbn [snd]. split; [intros (? & ? & X); discriminate|]. intros [_ W]. assert (K : @Err unit x = Ok tt); [|discriminate K].
      apply NAME. intros BV. exact (proj1 (W BV)). }
  2:{ cbn [snd]. intros ? ? X. discriminate X. }
  destruct r2 as [[]|x]; [|split].
  2:{ cbn [snd]. split; [intros (? & ? & X); discriminate|]. intros [_ W]. assert (K : @Err unit x = Ok tt); [|discriminate K].
      apply ANN. intros BV. exact (proj1 (proj2 (W BV))). }
  2:{ cbn [snd]. intros ? ? X. discriminate X. }
  cbn [snd]. split; [|exact C2].
  rewrite C1. pose proof (proj1 NAME eq_refl) as NM. pose proof (proj1 ANN eq_refl) as AN. clear - NM AN.
  assert (SC : ue_type e = EScalar -> begins_value (ue_type e) = true) by (intros ->; reflexivity).
  split; intros [A B]; (split; [exact A|]).
  - intros BV. split; [exact (NM BV)|]. split; [exact (AN BV)|exact B].
  - intros T. exact (proj2 (proj2 (B (SC T))) T).
Qed.
Print Assumptions C48_step.

(** A whole sequence: accepted only if well nested, with COMPLETE exactly at the top level. *)
Theorem C48_sequence : forall indent es fs' out, text_write_all indent t_init es = Ok (fs', out) ->
  exists open, accepted [] es = Some open /\ frames_of fs' open.
Proof.
  intros indent. assert (G : forall es fs open fs' out, frames_of fs open -> text_write_all indent fs es = Ok (fs', out) ->
    exists open', accepted open es = Some open' /\ frames_of fs' open').
  { induction es as [|e es IH]; intros fs open fs' out HF H.
    - injection H as <- _. exists open. auto.
    - cbn [text_write_all] in H. destruct (text_write indent fs e) as [cs r] eqn:T.
      destruct (C48_step indent fs open e HF) as [_ S]. rewrite T in S. cbn [snd] in S.
      destruct r as [[fs1 w]|]; [|discriminate]. cbn [bind] in H. destruct (S _ _ eq_refl) as (o & N & F & _).
      destruct (text_write_all indent fs1 es) as [[fs2 o2]|] eqn:U; [|discriminate]. injection H as <- <-.
      destruct (IH _ _ _ _ F U) as (o' & A & B). exists o'. cbn [accepted]. rewrite N. auto. }
  intros es fs' out H. exact (G es t_init [] fs' out eq_refl H).
Qed.
Print Assumptions C48_sequence.
Example C48_example :
  let ev ty it v fld := mkue ty it v fld [AText (txt "an")] None in
  let es := [ev EContainerStart (Some TStruct) EvNone None; ev EScalar (Some TInt) (EvVal (VInt 1)) (Some (AText (txt "a b")));
             ev EContainerStart (Some TSexp) EvNone (Some (ATok (sid_token 10))); ev EContainerEnd None EvNone None; ev EContainerEnd None EvNone None] in
  accepted [] es = Some [] /\
  match text_write_all None t_init es with Ok (_, o) => o = txt "an::{'a b':an::1,$10:an::()}" | Err _ => False end.
Proof. vm_compute. auto. Qed.
