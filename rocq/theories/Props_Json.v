(** Property C51: the JSON encoder. *)
From Coq Require Import String.
From Verif Require Import Base BaseFacts CoreModel CalendarFacts BinReaderModel SymbolsModel ManagedModel MultimapModel SimpleionModel SimpleionSpec
  SimpleionProofs TextNumbers TextNumbersFacts TextWriterModel TextReaderModel JsonModel.
From Verif Require TextGrammar TextNearest.
Local Open Scope Z_scope.

(** * Specification *)

(** Values made of Ion types throughout, as [loads] returns them. *)
Inductive ionic : pyval -> Prop :=
| io_null t an : ionic (PNull t an)
| io_scalar t an s : class_fits t s -> (t = TSymbol -> exists k, s = VSymbol k) -> ionic (PIon t an s)
| io_seq sexp an l : Forall ionic l -> ionic (PSeq sexp an l)
| io_struct an m : NoDup (map fst m) -> Forall (fun p => snd p <> [] /\ Forall ionic (snd p)) m -> ionic (PStruct an m).

(** A double that is a number: its eleven exponent bits are not all ones. *)
Definition finite_double (bits : Z) : Prop := bits / 2 ^ 52 mod 2 ^ 11 <> 2047.

(** The fields of a struct in order: name and value, repeated names included. *)
Definition fields (m : list (option text * list pyval)) : list (option text * pyval) :=
  flat_map (fun p => map (fun x => (fst p, x)) (snd p)) m.
(** [v] is the newest value of [k]. *)
Definition newest (k : option text) (v : pyval) (fs : list (option text * pyval)) : Prop :=
  exists before after, fs = before ++ (k, v) :: after /\ ~ In k (map fst after).

Inductive json_of : pyval -> json -> Prop :=
| jo_null t an : json_of (PNull t an) JNull
| jo_bool an b : json_of (PIon TBool an (VBool b)) (JBool b)
| jo_int an n : json_of (PIon TInt an (VInt n)) (JInt n)
| jo_finite an b : finite_double b -> json_of (PIon TFloat an (VFloat b)) (JFloat b)
| jo_not_finite an b : ~ finite_double b -> json_of (PIon TFloat an (VFloat b)) JNull
| jo_string an s : json_of (PIon TString an (VString s)) (JString s)
| jo_symbol an k s : tk_text k = Some s -> json_of (PIon TSymbol an (VSymbol k)) (JString s)
| jo_symbol_unknown an k : tk_text k = None -> json_of (PIon TSymbol an (VSymbol k)) JNull
| jo_clob an b : json_of (PIon TClob an (VBytes b)) (JString b)
| jo_blob an b : json_of (PIon TBlob an (VBytes b)) (JString (b64_encode b))
| jo_decimal an d : json_of (PIon TDecimal an (VDecimal d)) (JFloat (decimal_bits (d_neg d) (d_coef d) (d_exp d)))
| jo_timestamp an t : json_of (PIon TTimestamp an (VTimestamp (TsStamp t))) (JString (datetime_str (ts_dt t)))
| jo_datetime an d : json_of (PIon TTimestamp an (VTimestamp (TsPlain d))) (JString (datetime_str d))
| jo_int_as_bool an n : json_of (PIon TBool an (VInt n)) (JBool (n =? 1))
| jo_bool_as_int an b : json_of (PIon TInt an (VBool b)) (JInt (if b then 1 else 0))
| jo_list sexp an l js : Forall2 json_of l js -> json_of (PSeq sexp an l) (JList js)
| jo_struct an m js :
    NoDup (map fst js) ->
    (forall k, In k (map fst js) <-> In k (map fst (fields m))) ->
    (forall k j, In (k, j) js -> exists v, newest k v (fields m) /\ json_of v j) ->
    json_of (PStruct an m) (JDict js).

(** * Proof *)

Lemma double_finite b : float_is_inf b || float_is_nan b = false <-> finite_double b.
Proof.
  unfold float_is_inf, float_is_nan, finite_double.
  change inf_bits with (2047 * 2 ^ 52).
  assert (E : b / 2 ^ 52 mod 2 ^ 11 = b mod 2 ^ 63 / 2 ^ 52).
  { change (2 ^ 63) with (2 ^ 52 * 2 ^ 11). rewrite Z.rem_mul_r by lia. rewrite Z.mul_comm, Z.div_add by lia.
    rewrite (Z.div_small (b mod 2 ^ 52)); [lia|apply Z.mod_pos_bound; lia]. }
  rewrite E. clear E. pose proof (Z.mod_pos_bound b (2 ^ 63) ltac:(lia)) as M. set (x := b mod 2 ^ 63) in *.
  split.
  - intros H. apply orb_false_iff in H. destruct H as (H1 & H2). intros D.
    pose proof (Z.mul_div_le x (2 ^ 52) ltac:(lia)). rewrite D in H. lia.
  - intros D. apply orb_false_iff.
    assert (x < 2047 * 2 ^ 52); [|lia]. destruct (Z.lt_ge_cases x (2047 * 2 ^ 52)); [assumption|]. exfalso. apply D.
    assert (2047 <= x / 2 ^ 52) by (apply Z.div_le_lower_bound; lia).
    assert (x / 2 ^ 52 < 2048) by (apply Z.div_lt_upper_bound; lia). lia.
Qed.

Lemma newest_in m : NoDup (map fst m) -> forall k vs x, In (k, vs) m -> newest k x (map (fun y => (k, y)) vs) ->
  newest k x (fields m).
Proof.
  induction m as [|[k0 vs0] m IH]; intros ND k vs x I N; [destruct I|]. cbn [map fst] in ND. inversion ND as [|? ? NI ND']; subst.
  destruct N as (b & a & E & NA). cbn [fields flat_map fst snd]. fold (fields m). destruct I as [[= -> ->]|I].
  - exists b, (a ++ fields m). rewrite E, <- app_assoc. split; [reflexivity|]. rewrite map_app. intros J. apply in_app_or in J. destruct J as [J|J]; [now apply NA|].
    apply NI. apply in_map_iff in J. destruct J as ([k' v'] & <- & J). unfold fields in J. apply in_flat_map in J. destruct J as ([k2 vs2] & J1 & J2).
    apply in_map_iff in J2. destruct J2 as (y & [= <- <-] & _). apply in_map_iff. exists (k2, vs2). auto.
  - destruct (IH ND' k vs x I ltac:(exists b, a; auto)) as (b' & a' & E' & NA'). rewrite E'.
    exists (map (fun y => (k0, y)) vs0 ++ b'), a'. rewrite <- app_assoc. auto.
Qed.

Theorem encodes v : ionic v -> exists j, to_json v = Ok j /\ json_of v j.
Proof.
  induction v as [ |s|l IH|l IH|l IH|t an|t an s|sexp an l IH|an m IH] using pyval_induction; intros I; inversion I; subst; cbn [to_json].
  - eexists. split; [reflexivity|constructor].
  - match goal with H : class_fits _ _ |- _ => rename H into F end. match goal with H : t = TSymbol -> _ |- _ => rename H into Y end.
    destruct t, s; try contradiction; cbn [json_scalar].
    all: try (eexists; split; [reflexivity|]; constructor; fail).
    + pose proof (double_finite bits) as D. destruct (float_is_inf bits || float_is_nan bits).
      * eexists. split; [reflexivity|]. apply jo_not_finite. intros H. apply D in H. discriminate.
      * eexists. split; [reflexivity|]. apply jo_finite. now apply D.
    + destruct t as [t|d]; eexists; (split; [reflexivity|]); constructor.
    + destruct (tk_text t) eqn:E; eexists; (split; [reflexivity|]); now constructor.
    + exfalso. destruct (Y eq_refl) as (k & Q). discriminate Q.
  - match goal with H : Forall ionic l |- _ => rename H into F end.
    match goal with |- context [bind (?f l) _] => set (all := f) end.
    assert (G : exists js, all l = Ok js /\ Forall2 json_of l js).
    { clear I. induction l as [|x l IHl]; [exists []; split; [reflexivity|constructor]|].
      inversion IH; subst. inversion F; subst. destruct (IHl ltac:(assumption) ltac:(assumption)) as (js & A & B).
      match goal with H : ionic x -> _, K : ionic x |- _ => destruct (H K) as (j & C & D) end.
      exists (j :: js). split; [|now constructor]. cbn [all]. fold all. rewrite C. cbn [bind]. now rewrite A. }
    destruct G as (js & A & B). rewrite A. cbn [bind]. eexists. split; [reflexivity|]. now constructor.
  - match goal with H : Forall _ m, K : NoDup _ |- _ => rename H into F; rename K into ND end.
    match goal with |- context [bind (?f m) _] => set (all := f) end.
    assert (G : exists js, all m = Ok js /\ map fst js = map fst m /\
      forall k j, In (k, j) js -> exists vs v, In (k, vs) m /\ newest k v (map (fun y => (k, y)) vs) /\ json_of v j).
    { clear I ND. induction m as [|[k vs] m IHm]; [exists []; repeat split; intros ? ? []|].
      inversion IH as [|? ? IHv IHr]; subst. inversion F as [|? ? (NE & FV) Fr]; subst. cbn [snd] in *.
      destruct (IHm IHr Fr) as (js & A & B & C).
      match goal with |- context [all] => idtac end.
      assert (N : exists j v, (fix newest (vs : list pyval) : res json :=
                                 match vs with [] => Err IndexError | [x] => to_json x | _ :: vs' => newest vs' end) vs = Ok j /\
                  newest k v (map (fun y => (k, y)) vs) /\ json_of v j).
      { clear -NE IHv FV. induction vs as [|x vs IHs]; [congruence|]. inversion IHv; subst. inversion FV; subst.
        destruct vs as [|y vs].
        - match goal with H : ionic x -> _, K : ionic x |- _ => destruct (H K) as (j & C & D) end.
          exists j, x. split; [exact C|]. split; [exists [], []; split; [reflexivity|intros []]|exact D].
        - assert (NE' : y :: vs <> []) by discriminate. specialize (IHs ltac:(assumption) NE' ltac:(assumption)). destruct IHs as (j & v & P & (b & a & Q1 & Q2) & R). exists j, v. split; [exact P|].
          split; [|exact R]. exists ((k, x) :: b), a. split; [|exact Q2]. cbn [map] in *. rewrite Q1. reflexivity. }
      destruct N as (j & v & N1 & N2 & N3). exists ((k, j) :: js). cbn [all]. fold all. rewrite N1. cbn [bind]. rewrite A. cbn [bind map fst].
      split; [reflexivity|]. split; [now rewrite B|]. intros k' j' [[= <- <-]|I'].
      - exists vs, v. split; [now left|]. auto.
      - destruct (C _ _ I') as (vs' & v' & P & Q). exists vs', v'. split; [now right|]. exact Q. }
    destruct G as (js & A & B & C). rewrite A. cbn [bind]. eexists. split; [reflexivity|]. constructor.
    + now rewrite B.
    + intros k. rewrite B. unfold fields. split; intros J.
      * apply in_map_iff in J. destruct J as ([k' vs] & <- & J). rewrite Forall_forall in F. destruct (F _ J) as (NE & _). cbn [snd fst] in *.
        destruct vs as [|x vs]; [congruence|]. apply in_map_iff. exists (k', x). split; [reflexivity|]. apply in_flat_map. exists (k', x :: vs). split; [exact J|now left].
      * apply in_map_iff in J. destruct J as ([k' x] & <- & J). apply in_flat_map in J. destruct J as ([k2 vs2] & J1 & J2).
        apply in_map_iff in J2. destruct J2 as (y & [= <- <-] & _). cbn [fst]. apply in_map_iff. exists (k2, vs2). auto.
    + intros k j J. destruct (C k j J) as (vs & v & P & Q & R). exists v. split; [|exact R]. eapply newest_in; eassumption.
Qed.

(** C51.  Every value made of Ion types is encoded, and as the specification says: lists and
    s-expressions element by element, structs name by name with the newest value, nulls and floats that
    are not numbers as null. *)
Theorem C51_json : forall v, ionic v -> exists j, to_json v = Ok j /\ json_of v j.
Proof. exact encodes. Qed.
Print Assumptions C51_json.

Definition sym (s : string) : symarg := AText (chars s).
Definition int (n : Z) : pyval := PIon TInt [] (VInt n).
Example C51_case :
  let v := PStruct [sym "ann"] [(Some (chars "a"), [int 1; PSeq true [] [PNull TClob []; int 2]]);
                                (Some (chars "b"), [PIon TFloat [] (VFloat 0x7FF0000000000000)])] in
  ionic v /\
  to_json v = Ok (JDict [(Some (chars "a"), JList [JNull; JInt 2]); (Some (chars "b"), JNull)]).
Proof.
  split; [|vm_compute; reflexivity]. constructor.
  - repeat constructor; cbn; intuition discriminate.
  - repeat constructor; cbn; try discriminate.
Qed.
(** Older values of a repeated field do not appear. *)
Example C51_repeated : exists v w, ionic v /\ ionic w /\ v <> w /\ to_json v = to_json w.
Proof.
  exists (PStruct [] [(Some (chars "a"), [int 1; int 2])]), (PStruct [] [(Some (chars "a"), [int 2])]).
  split; [|split; [|split; [discriminate|vm_compute; reflexivity]]].
  all: constructor; [repeat constructor; cbn; tauto|repeat constructor; cbn; discriminate].
Qed.

(** * The strings of timestamps *)
(** [s] is [n] in exactly [k] decimal figures. *)
Definition figures (k : nat) (n : Z) (s : text) : Prop :=
  List.length s = k /\ Forall (fun c => 48 <= c <= 57) s /\ fold_left (fun a c => 10 * a + (c - 48)) s 0 = n.
(** YYYY-MM-DD hh:mm:ss, then a point and six figures if there are microseconds, then the offset, if it is known, as a sign, hh:mm and :ss if there are seconds. *)
Definition iso_8601 (d : dtime) (s : text) : Prop :=
  exists Y M D h m sec fraction offset,
    s = Y ++ chars "-" ++ M ++ chars "-" ++ D ++ chars " " ++ h ++ chars ":" ++ m ++ chars ":" ++ sec ++ fraction ++ offset /\
    figures 4 (dt_year d) Y /\ figures 2 (dt_month d) M /\ figures 2 (dt_day d) D /\
    figures 2 (dt_hour d) h /\ figures 2 (dt_minute d) m /\ figures 2 (dt_second d) sec /\
    (dt_micro d = 0 /\ fraction = [] \/ dt_micro d <> 0 /\ exists f, fraction = chars "." ++ f /\ figures 6 (dt_micro d) f) /\
    match dt_off d with
    | None => offset = []
    | Some o => exists sign hh mm ss H' M' S',
        offset = (if sign : bool then chars "-" else chars "+") ++ hh ++ chars ":" ++ mm ++ ss /\
        figures 2 H' hh /\ figures 2 M' mm /\ (S' = 0 /\ ss = [] \/ S' <> 0 /\ exists f, ss = chars ":" ++ f /\ figures 2 S' f) /\
        0 <= H' /\ 0 <= M' < 60 /\ 0 <= S' < 60 /\ o = (if sign then -1 else 1) * (3600 * H' + 60 * M' + S')
    end.
Lemma figures_pad k n : (0 < k)%nat -> 0 <= n < 10 ^ Z.of_nat k -> figures k n (pad k (nat_str n)).
Proof.
  intros K N. split; [|split].
  - apply pad_len, nat_str_len; assumption.
  - apply pad_chars, nat_str_chars; lia.
  - assert (V : forall l a, Forall dec_char l -> fold_left (fun a c => 10 * a + (c - 48)) l a = fold_left (fun a d => a * 10 + d) (map digit_of l) a).
    { induction l as [|c l IH]; intros a F; [reflexivity|]. inversion F as [|? ? C F']; subst. cbn [fold_left map]. rewrite <- IH by assumption. f_equal.
      unfold dec_char in C. unfold digit_of. replace ((48 <=? c) && (c <=? 57)) with true by lia. lia. }
    rewrite V by (apply pad_chars, nat_str_chars; lia).
    change (digits_value 10 (pad k (nat_str n)) = n). rewrite pad_value. apply nat_str_value; lia.
Qed.
Lemma figures_two n : 0 <= n < 100 -> figures 2 n (two n).
Proof. intros N. apply figures_pad; [lia|exact N]. Qed.
(** A timestamp is written in ISO 8601. *)
Theorem C51_timestamp : forall an x,
  let d := match x with TsStamp t => ts_dt t | TsPlain d => d end in
  dt_ok d -> match dt_off d with Some o => -86400 < o < 86400 | None => True end ->
  exists s, to_json (PIon TTimestamp an (VTimestamp x)) = Ok (JString s) /\ iso_8601 d s.
Proof.
  intros an x d (Y & [M D] & h & m & s & u) O. pose proof (days_in_month_pos (dt_year d) (dt_month d)) as DP.
  exists (datetime_str d). split; [reflexivity|]. unfold datetime_str.
  exists (pad 4 (nat_str (dt_year d))), (two (dt_month d)), (two (dt_day d)), (two (dt_hour d)), (two (dt_minute d)), (two (dt_second d)),
    (if dt_micro d =? 0 then [] else 46 :: pad 6 (nat_str (dt_micro d))), (iso_offset (dt_off d)).
  split; [reflexivity|]. split; [apply figures_pad; lia|]. do 5 (split; [apply figures_two; lia|]). split.
  - destruct (Z.eqb_spec (dt_micro d) 0); [auto|]. right. split; [assumption|]. eexists. split; [reflexivity|]. apply figures_pad; lia.
  - destruct (dt_off d) as [o|]; [|reflexivity]. unfold iso_offset.
    exists (o <? 0), (two (Z.abs o / 3600)), (two (Z.abs o mod 3600 / 60)), (if Z.abs o mod 60 =? 0 then [] else 58 :: two (Z.abs o mod 60)),
      (Z.abs o / 3600), (Z.abs o mod 3600 / 60), (Z.abs o mod 60).
    assert (A : 0 <= Z.abs o < 86400) by lia.
    assert (H1 : 0 <= Z.abs o / 3600 < 24) by (split; [apply Z.div_pos; lia|apply Z.div_lt_upper_bound; lia]).
    pose proof (Z.mod_pos_bound (Z.abs o) 3600 ltac:(lia)) as B.
    assert (H2 : 0 <= Z.abs o mod 3600 / 60 < 60) by (split; [apply Z.div_pos; lia|apply Z.div_lt_upper_bound; lia]).
    pose proof (Z.mod_pos_bound (Z.abs o) 60 ltac:(lia)) as H3.
    split; [destruct (o <? 0); reflexivity|]. split; [apply figures_two; lia|]. split; [apply figures_two; lia|]. split.
    { destruct (Z.eqb_spec (Z.abs o mod 60) 0); [auto|]. right. split; [assumption|]. eexists. split; [reflexivity|]. apply figures_two; lia. }
    repeat (split; [lia|]).
    assert (E : Z.abs o = 3600 * (Z.abs o / 3600) + 60 * (Z.abs o mod 3600 / 60) + Z.abs o mod 60).
    { pose proof (Z.div_mod (Z.abs o) 3600 ltac:(lia)). pose proof (Z.div_mod (Z.abs o mod 3600) 60 ltac:(lia)).
      assert (X : Z.abs o mod 3600 mod 60 = Z.abs o mod 60) by (change 3600 with (60 * 60); rewrite Z.rem_mul_r by lia; rewrite Z.mul_comm, Z.mod_add, Z.mod_mod by lia; reflexivity).
      lia. }
    destruct (Z.ltb_spec o 0); lia.
Qed.
(** A case: 5 microseconds, and an offset with seconds, which no Ion text has but a [datetime] may. *)
Theorem C51_timestamp_case :
  let d := mkdt 804 2 29 1 2 3 5 (Some (-37801)) in
  dt_ok d /\ to_json (PIon TTimestamp [] (VTimestamp (TsPlain d))) = Ok (JString (chars "0804-02-29 01:02:03.000005-10:30:01")).
Proof. split; [repeat split; cbn; lia|vm_compute; reflexivity]. Qed.

(** * The strings of blobs *)
(** A number in figures of a base, the first the most significant. *)
Definition number_in (base : Z) (l : list Z) : Z := fold_left (fun a x => base * a + x) l 0.
(** Base 64 (RFC 4648): the bits of the octets, filled up with zeros to a multiple of six, six by six as characters of the alphabet; then equals signs
    up to a multiple of four characters. *)
Definition base64_of (octets : list Z) (s : text) : Prop :=
  exists sixes p, s = map (fun i => nth (Z.to_nat i) (chars "ABCDEFGHIJKLMNOPQRSTUVWXYZabcdefghijklmnopqrstuvwxyz0123456789+/") 0) sixes ++ repeat 61 p /\
    Forall (fun i => 0 <= i < 64) sixes /\ (p < 4)%nat /\ (zlen s) mod 4 = 0 /\
    0 <= 6 * zlen sixes - 8 * zlen octets < 6 /\ number_in 64 sixes = number_in 256 octets * 2 ^ (6 * zlen sixes - 8 * zlen octets).
Lemma b64_alphabet i : 0 <= i < 64 -> nth (Z.to_nat i) (chars "ABCDEFGHIJKLMNOPQRSTUVWXYZabcdefghijklmnopqrstuvwxyz0123456789+/") 0 = b64_char i.
Proof.
  intros H. assert (K : forall n, (n < 64)%nat -> nth n (chars "ABCDEFGHIJKLMNOPQRSTUVWXYZabcdefghijklmnopqrstuvwxyz0123456789+/") 0 = b64_char (Z.of_nat n)).
  { intros n L. do 64 (destruct n as [|n]; [vm_compute; reflexivity|]). lia. }
  rewrite K by lia. now rewrite Z2Nat.id by lia.
Qed.
Lemma number_from base l : forall a, fold_left (fun a x => base * a + x) l a = a * base ^ zlen l + number_in base l.
Proof.
  unfold number_in. induction l as [|x l IH]; intros a; cbn [fold_left]; [rewrite zlen_nil; lia|].
  rewrite IH, (IH (base * 0 + x)), zlen_cons, Z.pow_add_r by (try apply zlen_nonneg; lia). lia.
Qed.
Lemma base64_says l : Forall (fun c => 0 <= c < 256) l -> base64_of l (b64_encode l).
Proof.
  remember (List.length l) as n eqn:N. revert l N. induction n as [n IH] using (well_founded_induction Wf_nat.lt_wf). intros l -> F.
  destruct l as [|a [|b [|c r]]].
  - exists [], 0%nat. repeat split; cbn; try constructor; lia.
  - inversion F as [|? ? A _]; subst. exists [a / 4; a mod 4 * 16], 2%nat. cbn [map repeat b64_encode app].
    assert (R : 0 <= a / 4 < 64 /\ 0 <= a mod 4 * 16 < 64) by (Z.to_euclidean_division_equations; lia). destruct R as [R1 R2].
    rewrite !b64_alphabet by assumption. split; [reflexivity|]. split; [repeat constructor; lia|]. split; [lia|]. split; [reflexivity|]. match goal with |- context [6 * zlen ?s - 8 * zlen ?o] => let k := constr:(6 * zlen s - 8 * zlen o) in first [change k with 4|change k with 2] end.
    split; [lia|]. unfold number_in. cbn [fold_left]. change (2 ^ 4) with 16. change (2 ^ 2) with 4. Z.to_euclidean_division_equations; lia.
  - inversion F as [|? ? A F']; subst. inversion F' as [|? ? B _]; subst. exists [a / 4; a mod 4 * 16 + b / 16; b mod 16 * 4], 1%nat. cbn [map repeat b64_encode app].
    assert (R : 0 <= a / 4 < 64 /\ 0 <= a mod 4 * 16 + b / 16 < 64 /\ 0 <= b mod 16 * 4 < 64) by (Z.to_euclidean_division_equations; lia). destruct R as (R1 & R2 & R3).
    rewrite !b64_alphabet by assumption. split; [reflexivity|]. split; [repeat constructor; lia|]. split; [lia|]. split; [reflexivity|]. match goal with |- context [6 * zlen ?s - 8 * zlen ?o] => let k := constr:(6 * zlen s - 8 * zlen o) in first [change k with 4|change k with 2] end.
    split; [lia|]. unfold number_in. cbn [fold_left]. change (2 ^ 4) with 16. change (2 ^ 2) with 4. Z.to_euclidean_division_equations; lia.
  - inversion F as [|? ? A F']; subst. inversion F' as [|? ? B F'']; subst. inversion F'' as [|? ? C FR]; subst.
    destruct (IH (List.length r) ltac:(cbn; lia) r eq_refl FR) as (s & p & E & S & P & M & K & V). cbn [b64_encode]. rewrite E in M |- *.
    exists (a / 4 :: a mod 4 * 16 + b / 16 :: b mod 16 * 4 + c / 64 :: c mod 64 :: s), p.
    assert (R : 0 <= a / 4 < 64 /\ 0 <= a mod 4 * 16 + b / 16 < 64 /\ 0 <= b mod 16 * 4 + c / 64 < 64 /\ 0 <= c mod 64 < 64) by (Z.to_euclidean_division_equations; lia). destruct R as (R1 & R2 & R3 & R4).
    cbn [map app]. rewrite !b64_alphabet by assumption. split; [reflexivity|]. split; [repeat (constructor; [assumption|]); exact S|]. split; [exact P|].
    rewrite !zlen_cons. split.
    { match goal with |- ?x mod 4 = 0 => match type of M with ?y mod 4 = 0 => replace x with (y + 1 * 4) by lia end end. rewrite Z.mod_add by lia. exact M. }
     split; [lia|].
    replace (6 * (1 + (1 + (1 + (1 + zlen s)))) - 8 * (1 + (1 + (1 + zlen r)))) with (6 * zlen s - 8 * zlen r) by lia.
    unfold number_in. cbn [fold_left]. rewrite !number_from, V.
    set (k := 6 * zlen s - 8 * zlen r) in *. pose proof (zlen_nonneg r). pose proof (zlen_nonneg s).
    assert (X : 64 ^ zlen s = 256 ^ zlen r * 2 ^ k).
    { change 64 with (2 ^ 6). change 256 with (2 ^ 8). rewrite <- !Z.pow_mul_r, <- Z.pow_add_r by lia. f_equal. lia. }
    rewrite X. assert (Y : 64 * (64 * (64 * (64 * 0 + a / 4) + (a mod 4 * 16 + b / 16)) + (b mod 16 * 4 + c / 64)) + c mod 64 = 256 * (256 * (256 * 0 + a) + b) + c)
      by (Z.to_euclidean_division_equations; lia).
    rewrite Y. ring.
Qed.
(** A blob is written in base 64. *)
Theorem C51_blob : forall an b, Forall (fun c => 0 <= c < 256) b -> exists s, to_json (PIon TBlob an (VBytes b)) = Ok (JString s) /\ base64_of b s.
Proof. intros an b F. exists (b64_encode b). split; [reflexivity|apply base64_says; exact F]. Qed.
(** Cases: the test vectors of RFC 4648. *)
Theorem C51_blob_cases : map (fun b => to_json (PIon TBlob [] (VBytes (chars b)))) [""; "f"; "fo"; "foo"; "foob"]%string =
  map (fun s => Ok (JString (chars s))) [""; "Zg=="; "Zm8="; "Zm9v"; "Zm9vYg=="]%string.
Proof. vm_compute. reflexivity. Qed.

(** * Decimals *)
(** A decimal is written as the double nearest to it (IEEE 754: the even one of two; from the halfway point to the next power of two on, infinity). *)
Theorem C51_decimal : forall an neg coef exp, 0 <= coef -> exists bits,
  to_json (PIon TDecimal an (VDecimal (mkdec neg coef exp))) = Ok (JFloat ((if neg then 2 ^ 63 else 0) + bits)) /\
  TextGrammar.nearest_double (coef * 10 ^ Z.max 0 exp) (10 ^ Z.max 0 (- exp)) bits.
Proof.
  intros an neg coef exp C. eexists. split; [reflexivity|]. apply TextNearest.nearest_bits_nearest; [|apply Z.pow_pos_nonneg; lia].
  apply Z.mul_nonneg_nonneg; [exact C|apply Z.pow_nonneg; lia].
Qed.
(** A large decimal is written as an infinity, though an infinite float is written as null. *)
Theorem C51_large_decimal : to_json (PIon TDecimal [] (VDecimal (mkdec false 1 400))) = Ok (JFloat 0x7FF0000000000000) /\
  to_json (PIon TFloat [] (VFloat 0x7FF0000000000000)) = Ok JNull.
Proof. split; vm_compute; reflexivity. Qed.
