(** Timestamps: the text the writer makes reads back as the same timestamp. *)
From Verif Require Import Base BaseFacts CoreModel ScalarFacts CalendarFacts TimestampFacts BinReaderModel TextNumbers TextNumbersFacts TextWriterModel TextReaderModel TextWalk TextTokens TextNumberTokens.
Local Open Scope Z_scope.

Definition stamp (f : option token) (an : list token) (y : list Z) : tctx := mkk f an false y (Some TTimestamp) None false false false false.

(** * One character *)
Definition ts_after (st : Z) : tsnext :=
  if st =? 1 then XYearDelim else if st =? 2 then XTTerm else if st =? 3 then XColon else if st =? 4 then XOffColon else XOffDot.
Lemma ts_first v k prev st nxt toks can a : dec_char a -> nxt = XDigits \/ nxt = XDigitsTerm -> prev = 58 \/ prev = 84 \/ prev = 45 /\ st <= 1 -> 0 <= st <= 4 ->
  send v (HTs prev st nxt toks can) (plain a) k = Ok (TGo (HTs a (st + 1) nxt (tok_set toks (st + 1) [a]) false), k, []).
Proof.
  intros A N P S. unfold send, send_ts. cbn [cz plain is_eof]. rewrite andb_false_r. cbn [negb]. rewrite andb_true_r, orb_false_r.
  assert (AL : ts_allows nxt a = true) by (destruct N as [->| ->]; cbn [ts_allows]; chars). rewrite AL. cbn [negb].
  replace (is_term a) with false by chars. replace (a =? 90) with false by chars. replace (a =? 84) with false by chars.
  replace (is_ts_delim a) with false by (unfold is_ts_delim; chars). replace ((prev =? 43) || ((1 <? st) && (prev =? 45))) with false by lia.
  replace (is_ts_delim prev || (prev =? 84)) with true by (unfold is_ts_delim; lia). replace (8 <=? st) with false by lia. replace (st + 1 =? 6) with false by lia. reflexivity.
Qed.
Lemma ts_second v k prev st nxt toks can b : dec_char prev -> dec_char b -> nxt = XDigits \/ nxt = XDigitsTerm -> 1 <= st <= 5 ->
  send v (HTs prev st nxt toks can) (plain b) k = Ok (TGo (HTs b st (ts_after st) (tok_push toks st b) (st =? 2)), k, []).
Proof.
  intros P A N S. unfold send, send_ts. cbn [cz plain is_eof]. rewrite andb_false_r. cbn [negb]. rewrite andb_true_r, orb_false_r.
  assert (AL : ts_allows nxt b = true) by (destruct N as [->| ->]; cbn [ts_allows]; chars). rewrite AL. cbn [negb].
  replace (is_term b) with false by chars. replace (b =? 90) with false by chars. replace (b =? 84) with false by chars.
  replace (is_ts_delim b) with false by (unfold is_ts_delim; chars). replace ((prev =? 43) || ((1 <? st) && (prev =? 45))) with false by chars.
  replace (is_ts_delim prev || (prev =? 84)) with false by (unfold is_ts_delim; chars). replace (is_digit prev) with true by chars. unfold ts_after.
  destruct (st =? 1) eqn:E1; [replace (st =? 2) with false by lia; reflexivity|]. destruct (st =? 2) eqn:E2; [reflexivity|]. destruct (st =? 3) eqn:E3; [reflexivity|].
  destruct (st =? 4) eqn:E4; [reflexivity|]. replace (st =? 5) with true by lia. reflexivity.
Qed.
Lemma ts_two v f an y prev st nxt toks can a b : dec_char a -> dec_char b -> nxt = XDigits \/ nxt = XDigitsTerm -> prev = 58 \/ prev = 84 \/ prev = 45 /\ st <= 1 -> 0 <= st <= 4 ->
  hrun v (HTs prev st nxt toks can) (stamp f an y) [a; b]
    (HTs b (st + 1) (ts_after (st + 1)) (tok_push (tok_set toks (st + 1) [a]) (st + 1) b) (st + 1 =? 2)) (stamp f an y).
Proof.
  intros A B N P S. eapply h_cons; [apply ts_first; assumption|reflexivity|reflexivity|]. apply hrun_one; [|reflexivity|reflexivity].
  apply ts_second; auto. lia.
Qed.
(** A delimiter. *)
Lemma ts_delim v k prev st nxt toks can c : is_ts_delim c = true -> ts_allows nxt c = true ->
  send v (HTs prev st nxt toks can) (plain c) k = Ok (TGo (HTs c st XDigits toks false), k, []).
Proof.
  intros D A. unfold send, send_ts. cbn [cz plain is_eof]. rewrite andb_false_r. cbn [negb]. rewrite andb_true_r, orb_false_r, A. cbn [negb].
  unfold is_ts_delim in D. replace (is_term c) with false by chars. replace (c =? 90) with false by lia. replace (c =? 84) with false by lia. unfold is_ts_delim. rewrite D. reflexivity.
Qed.
Lemma ts_tee v k prev st nxt toks can : ts_allows nxt 84 = true ->
  send v (HTs prev st nxt toks can) (plain 84) k = Ok (TGo (HTs 84 st XDigitsTerm toks true), k, []).
Proof. intros A. unfold send, send_ts. cbn [cz plain is_eof]. rewrite andb_false_r. cbn [negb]. rewrite A. reflexivity. Qed.
(** The fraction's digits. *)
Lemma ts_fdigits v f an y ds : Forall dec_char ds -> forall prev toks can l, dec_char prev -> tok_get toks 6 = Some l -> length toks = 9%nat -> exists prev' can',
  hrun v (HTs prev 6 XDigitsOff toks can) (stamp f an y) ds (HTs prev' 6 XDigitsOff (tok_set toks 6 (l ++ ds)) can') (stamp f an y).
Proof.
  intros D. induction D as [|d ds Hd D IH]; intros prev toks can l P G L.
  - exists prev, can. rewrite app_nil_r. replace (tok_set toks 6 l) with toks; [constructor|].
    do 9 (destruct toks as [|? toks]; [discriminate|]). destruct toks; [|discriminate]. match type of G with ?x = _ => let y := eval vm_compute in x in change x with y in G end. rewrite G. reflexivity.
  - destruct (IH d (tok_set toks 6 (l ++ [d])) false (l ++ [d])) as (prev' & can' & R).
    + exact Hd.
    + do 9 (destruct toks as [|? toks]; [discriminate|]). reflexivity.
    + do 9 (destruct toks as [|? toks]; [discriminate|]). destruct toks; [|discriminate]. reflexivity.
    + exists prev', can'. eapply h_cons with (h1 := HTs d 6 XDigitsOff (tok_set toks 6 (l ++ [d])) false) (k1 := stamp f an y); [|reflexivity|reflexivity|].
      2:{ replace (tok_set toks 6 (l ++ d :: ds)) with (tok_set (tok_set toks 6 (l ++ [d])) 6 ((l ++ [d]) ++ ds)); [exact R|].
          rewrite <- app_assoc. do 9 (destruct toks as [|? toks]; [discriminate|]). destruct toks; [|discriminate]. reflexivity. }
      unfold send, send_ts. cbn [cz plain is_eof]. rewrite andb_false_r. cbn [negb]. rewrite andb_true_r, orb_false_r.
      replace (ts_allows XDigitsOff d) with true by (cbn [ts_allows]; chars). cbn [negb].
      replace (is_term d) with false by chars. replace (d =? 90) with false by chars. replace (d =? 84) with false by chars.
      replace (is_ts_delim d) with false by (unfold is_ts_delim; chars). replace ((prev =? 43) || ((1 <? 6) && (prev =? 45))) with false by chars.
      replace (is_ts_delim prev || (prev =? 84)) with false by (unfold is_ts_delim; chars). replace (is_digit prev) with true by chars.
      unfold tok_push. rewrite G. reflexivity.
Qed.
Lemma ts_frac_first v k toks can nxt d : dec_char d -> nxt = XDigits ->
  send v (HTs 46 5 nxt toks can) (plain d) k = Ok (TGo (HTs d 6 XDigitsOff (tok_set toks 6 [d]) false), k, []).
Proof.
  intros D ->. unfold send, send_ts. cbn [cz plain is_eof]. rewrite andb_false_r. cbn [negb]. rewrite andb_true_r, orb_false_r.
  replace (ts_allows XDigits d) with true by (cbn [ts_allows]; chars). cbn [negb].
  replace (is_term d) with false by chars. replace (d =? 90) with false by chars. replace (d =? 84) with false by chars.
  replace (is_ts_delim d) with false by (unfold is_ts_delim; chars). reflexivity.
Qed.

(** * The offset *)
Definition off_ok (off : option Z) : Prop := match off with None => True | Some o => o mod 60 = 0 /\ -86400 < o < 86400 end.
Lemma dec_no_minus l : Forall dec_char l -> mem 45 l = false.
Proof. unfold mem. induction 1 as [|c l Hc H IH]; [reflexivity|]. cbn [existsb]. rewrite IH. chars. Qed.
Lemma parse_dec l : Forall dec_char l -> parse_int10 l = digits_value 10 l.
Proof.
  intros H. unfold parse_int10, strip_minus. destruct l as [|c l]; [reflexivity|]. inversion H as [|? ? Hc Hl]; subst.
  assert (c <> 45) by chars. destruct c; try reflexivity. repeat (destruct p as [p|p|]; try reflexivity). lia.
Qed.
Definition off_h (off : option Z) : list Z :=
  match off with
  | None => [45; 48; 48]
  | Some o => if o =? 0 then [48] else (if o <? 0 then [45] else []) ++ two (Z.abs o / 3600)
  end.
Definition off_m (off : option Z) : list Z :=
  match off with None => [48; 48] | Some o => if o =? 0 then [48] else two (Z.abs o mod 3600 / 60) end.
Lemma ts_signed v f an y prev st nxt toks can sg a b c d : (forall c, is_off c = true -> ts_allows nxt c = true) -> 2 <= st <= 6 ->
  length toks = 9%nat -> sg = 43 \/ sg = 45 -> dec_char a -> dec_char b -> dec_char c -> dec_char d ->
  exists prev' st', hrun v (HTs prev st nxt toks can) (stamp f an y) [sg; a; b; 58; c; d]
    (HTs prev' st' XTerm (tok_set (tok_set toks 7 ((if sg =? 45 then [45] else []) ++ [a; b])) 8 [c; d]) true) (stamp f an y).
Proof.
  intros NX ST L SG A B C D. exists d, 8.
    eapply h_cons; [apply ts_delim; [unfold is_ts_delim; lia|apply NX; unfold is_off; lia]|reflexivity|reflexivity|].
    eapply h_cons with (h1 := HTs a 7 XDigits (tok_set toks 7 ((if sg =? 45 then [45] else []) ++ [a])) false) (k1 := stamp f an y); [|reflexivity|reflexivity|].
    { unfold send, send_ts. cbn [cz plain is_eof]. rewrite andb_false_r. cbn [negb]. rewrite andb_true_r, orb_false_r.
      replace (ts_allows XDigits a) with true by (cbn [ts_allows]; chars). cbn [negb].
      replace (is_term a) with false by chars. replace (a =? 90) with false by chars. replace (a =? 84) with false by chars.
      replace (is_ts_delim a) with false by (unfold is_ts_delim; chars). replace ((sg =? 43) || ((1 <? st) && (sg =? 45))) with true by lia. reflexivity. }
    eapply h_cons with (h1 := HTs b 7 XColon (tok_set toks 7 ((if sg =? 45 then [45] else []) ++ [a; b])) false) (k1 := stamp f an y); [|reflexivity|reflexivity|].
    { unfold send, send_ts. cbn [cz plain is_eof]. rewrite andb_false_r. cbn [negb]. rewrite andb_true_r, orb_false_r.
      replace (ts_allows XDigits b) with true by (cbn [ts_allows]; chars). cbn [negb].
      replace (is_term b) with false by chars. replace (b =? 90) with false by chars. replace (b =? 84) with false by chars.
      replace (is_ts_delim b) with false by (unfold is_ts_delim; chars). replace ((a =? 43) || ((1 <? 7) && (a =? 45))) with false by chars.
      replace (is_ts_delim a || (a =? 84)) with false by (unfold is_ts_delim; chars). replace (is_digit a) with true by chars. cbn [Z.eqb Pos.eqb].
      do 9 (destruct toks as [|? toks]; [discriminate|]). destruct toks; [|discriminate]. unfold go. do 4 f_equal. unfold tok_push. cbv [tok_set tok_get Z.to_nat Pos.to_nat Pos.iter_op Nat.add]. cbn [firstn skipn app nth].
      rewrite <- app_assoc. reflexivity. }
    eapply h_cons; [apply ts_delim; reflexivity|reflexivity|reflexivity|].
    eapply h_cons with (h1 := HTs c 8 XDigits (tok_set (tok_set toks 7 ((if sg =? 45 then [45] else []) ++ [a; b])) 8 [c]) false) (k1 := stamp f an y); [|reflexivity|reflexivity|].
    { unfold send, send_ts. cbn [cz plain is_eof]. rewrite andb_false_r. cbn [negb]. rewrite andb_true_r, orb_false_r.
      replace (ts_allows XDigits c) with true by (cbn [ts_allows]; chars). cbn [negb].
      replace (is_term c) with false by chars. replace (c =? 90) with false by chars. replace (c =? 84) with false by chars.
      replace (is_ts_delim c) with false by (unfold is_ts_delim; chars). reflexivity. }
    eapply hrun_one; [|reflexivity|reflexivity].
    unfold send, send_ts. cbn [cz plain is_eof]. rewrite andb_false_r. cbn [negb]. rewrite andb_true_r, orb_false_r.
    replace (ts_allows XDigits d) with true by (cbn [ts_allows]; chars). cbn [negb].
    replace (is_term d) with false by chars. replace (d =? 90) with false by chars. replace (d =? 84) with false by chars.
    replace (is_ts_delim d) with false by (unfold is_ts_delim; chars). replace ((c =? 43) || ((1 <? 8) && (c =? 45))) with false by chars.
    replace (is_ts_delim c || (c =? 84)) with false by (unfold is_ts_delim; chars). replace (is_digit c) with true by chars.
    do 9 (destruct toks as [|? toks]; [discriminate|]). destruct toks; [|discriminate]. reflexivity.
Qed.
Lemma ts_offset v f an y off prev st nxt toks can : off_ok off -> (forall c, is_off c = true -> ts_allows nxt c = true) -> 2 <= st <= 6 ->
  length toks = 9%nat ->
  exists prev' st', hrun v (HTs prev st nxt toks can) (stamp f an y) (offset_text off) (HTs prev' st' XTerm (tok_set (tok_set toks 7 (off_h off)) 8 (off_m off)) true) (stamp f an y).
Proof.
  intros OK NX ST L.
  assert (SIGNED : forall sg a b c d, sg = 43 \/ sg = 45 -> dec_char a -> dec_char b -> dec_char c -> dec_char d ->
    exists prev' st', hrun v (HTs prev st nxt toks can) (stamp f an y) [sg; a; b; 58; c; d]
      (HTs prev' st' XTerm (tok_set (tok_set toks 7 ((if sg =? 45 then [45] else []) ++ [a; b])) 8 [c; d]) true) (stamp f an y)).
  { intros sg a b c d. now apply ts_signed. }
  unfold offset_text, off_h, off_m. destruct off as [o|].
  - destruct OK as (M60 & B). destruct (o =? 0) eqn:Z0.
    + exists 90, st.
      eapply hrun_one; [|reflexivity|reflexivity]. unfold send, send_ts. cbn [cz plain is_eof]. rewrite andb_false_r. cbn [negb].
      rewrite (NX 90 eq_refl). reflexivity.
    + cbv zeta. assert (H1 : 0 <= Z.abs o / 3600 < 24). { split; [apply Z.div_pos; lia|apply Z.div_lt_upper_bound; lia]. }
      assert (R1 : 0 <= Z.abs o mod 3600 < 3600) by (apply Z.mod_pos_bound; lia).
      assert (H2 : 0 <= Z.abs o mod 3600 / 60 < 60). { split; [apply Z.div_pos; lia|apply Z.div_lt_upper_bound; lia]. }
      assert (AM : Z.abs o mod 60 = 0). { destruct (Z.abs_eq_or_opp o) as [->| ->]; [exact M60|]. apply Z.mod_opp_l_z; lia. }
      replace (Z.abs o mod 60 =? 0) with true by lia.
      destruct (two_spec (Z.abs o / 3600) ltac:(lia)) as (a & b & -> & A & B' & V1).
      destruct (two_spec (Z.abs o mod 3600 / 60) ltac:(lia)) as (c & d & -> & C & D & V2).
      destruct (SIGNED (if o <? 0 then 45 else 43) a b c d) as (prev' & st' & R); [destruct (o <? 0); auto|auto..|].
      exists prev', st'. cbn [app] in *. replace (if o <? 0 then [45] else []) with (if (if o <? 0 then 45 else 43) =? 45 then [45] else []) by (destruct (o <? 0); reflexivity). exact R.
  - destruct (SIGNED 45 48 48 48 48) as (prev' & st' & R); [auto|chars..|].
    exists prev', st'. exact R.
Qed.
Lemma off_tokens off : off_ok off ->
  (let neg := mem 45 (off_h off) in
   let oh := parse_int10 (off_h off) in let om := parse_int10 (off_m off) * (if neg then -1 else 1) in
   if neg && (oh =? 0) && (om =? 0) then Ok (None, None) else Ok (Some oh, Some om)) =
  @Ok (option Z * option Z) (match off with None => None | Some o => Some (Z.quot o 3600) end, match off with None => None | Some o => Some (Z.quot (Z.rem o 3600) 60) end).
Proof.
  intros OK. unfold off_h, off_m. destruct off as [o|]; [|reflexivity]. destruct OK as (M60 & B). destruct (o =? 0) eqn:Z0; [assert (o = 0) by lia; subst o; reflexivity|].
  assert (H1 : 0 <= Z.abs o / 3600 < 24). { split; [apply Z.div_pos; lia|apply Z.div_lt_upper_bound; lia]. }
  assert (R1 : 0 <= Z.abs o mod 3600 < 3600) by (apply Z.mod_pos_bound; lia).
  assert (H2 : 0 <= Z.abs o mod 3600 / 60 < 60). { split; [apply Z.div_pos; lia|apply Z.div_lt_upper_bound; lia]. }
  assert (AM : Z.abs o mod 60 = 0). { destruct (Z.abs_eq_or_opp o) as [->| ->]; [exact M60|]. apply Z.mod_opp_l_z; lia. }
  destruct (two_spec (Z.abs o / 3600) ltac:(lia)) as (a & b & -> & A & B' & V1).
  destruct (two_spec (Z.abs o mod 3600 / 60) ltac:(lia)) as (c & d & -> & C & D & V2).
  assert (DM : Z.abs o = 3600 * (Z.abs o / 3600) + Z.abs o mod 3600) by (apply Z.div_mod; lia).
  assert (DM2 : Z.abs o mod 3600 = 60 * (Z.abs o mod 3600 / 60) + (Z.abs o mod 3600) mod 60) by (apply Z.div_mod; lia).
  assert (P1 : parse_int10 [a; b] = Z.abs o / 3600) by (rewrite parse_dec by auto; exact V1).
  assert (P2 : parse_int10 [c; d] = Z.abs o mod 3600 / 60) by (rewrite parse_dec by auto; exact V2).
  rewrite P2. destruct (o <? 0) eqn:S; cbn [app].
  - cbn [mem existsb Z.eqb Pos.eqb orb]. assert (P3 : parse_int10 [45; a; b] = - (Z.abs o / 3600)) by (rewrite <- V1; reflexivity).
    rewrite P3. replace (Z.quot o 3600) with (- (Z.abs o / 3600)).
    2:{ rewrite Z.abs_neq by lia. rewrite <- Z.quot_div_nonneg by lia. rewrite Z.quot_opp_l by lia. lia. }
    replace (Z.quot (Z.rem o 3600) 60) with (Z.abs o mod 3600 / 60 * -1).
    2:{ rewrite Z.abs_neq in * by lia. rewrite <- Z.rem_mod_nonneg in * by lia. rewrite Z.rem_opp_l in * by lia.
        rewrite <- Z.quot_div_nonneg by lia. rewrite Z.quot_opp_l by lia. lia. }
    replace (true && (- (Z.abs o / 3600) =? 0) && (Z.abs o mod 3600 / 60 * -1 =? 0)) with false; [reflexivity|].
    assert ((Z.abs o mod 3600) mod 60 = 0).
    { rewrite Z.mod_eq in AM by lia. rewrite (Z.mod_eq (Z.abs o) 3600) at 1 by lia. 
      replace (Z.abs o - 3600 * (Z.abs o / 3600)) with (Z.abs o + (- 60 * (Z.abs o / 3600)) * 60) by lia. rewrite Z.mod_add by lia. rewrite Z.mod_eq by lia. exact AM. }
    lia.
  - rewrite (dec_no_minus [a; b]) by auto. cbn [andb]. rewrite P1, Z.mul_1_r. rewrite Z.abs_eq by lia. rewrite Z.quot_div_nonneg, Z.rem_mod_nonneg by lia.
    rewrite Z.quot_div_nonneg by (try lia; apply Z.mod_pos_bound; lia). reflexivity.
Qed.

(** * The year *)
Definition ts_start (c : Z) (y : list Z) : hs :=
  HTs c 0 (if c =? 84 then XDigitsTerm else XDigits) [Some y; None; None; None; None; None; None; None; None] (c =? 84).
Lemma start_ts_spec f an y c t : length y = 4%nat -> t = TInt \/ t = TTimestamp -> start_ts c (num f an t y) = Ok (TGo (ts_start c y), stamp f an y, []).
Proof.
  intros L T. assert (E : set_type (Some TTimestamp) (num f an t y) = stamp f an y) by (destruct T as [->| ->]; reflexivity).
  unfold start_ts. rewrite E. cbn [stamp k_val]. replace (zlen y =? 4) with true by (unfold zlen; lia). reflexivity.
Qed.
Lemma year_run v f an y c : length y = 4%nat -> Forall dec_char y -> c = 45 \/ c = 84 -> exists c0 rest h0 k0,
  y ++ [c] = c0 :: rest /\ dec_char c0 /\ start_value v c0 (kid f an) = Ok (TGo h0, k0, []) /\ k_quoted k0 = false /\
  hrun v h0 k0 rest (ts_start c y) (stamp f an y).
Proof.
  intros L D C. do 4 (destruct y as [|? y]; [discriminate|]). destruct y; [|discriminate].
  inversion D as [|? ? D0 D']; subst. inversion D' as [|? ? D1 D'']; subst. inversion D'' as [|? ? D2 D3']; subst. inversion D3' as [|? ? D3 _]; subst.
  cbn [app]. destruct (Z.eq_dec z 48) as [->|NZ].
  - exists 48, [z0; z1; z2; c], HZero, (num f an TInt [48]). split; [reflexivity|]. split; [chars|]. split; [reflexivity|]. split; [reflexivity|].
    eapply h_cons with (h1 := HTsZero) (k1 := num f an TTimestamp [48; z0]); [|reflexivity|reflexivity|].
    { unfold send, send_zero, after_whole. cbn [cz plain]. decide_chars. reflexivity. }
    eapply h_cons with (h1 := HTsZero) (k1 := num f an TTimestamp [48; z0; z1]); [|reflexivity|reflexivity|].
    { unfold send, send_ts_zero. cbn [cz plain]. decide_chars. reflexivity. }
    eapply h_cons with (h1 := HTsZero) (k1 := num f an TTimestamp [48; z0; z1; z2]); [|reflexivity|reflexivity|].
    { unfold send, send_ts_zero. cbn [cz plain]. decide_chars. reflexivity. }
    apply hrun_one; [|reflexivity|reflexivity]. unfold send, send_ts_zero. cbn [cz plain]. replace ((c =? 45) || (c =? 84)) with true by lia.
    apply start_ts_spec; auto.
  - exists z, [z0; z1; z2; c], HNum, (num f an TInt [z]). split; [reflexivity|]. split; [chars|]. split; [|split; [reflexivity|]].
    { unfold start_value. decide_chars. reflexivity. }
    change [z0; z1; z2; c] with ([z0; z1; z2] ++ [c]). eapply hrun_app; [apply (num_digits v f an TInt [z0; z1; z2]); [assumption|reflexivity]|].
    apply hrun_one; [|reflexivity|reflexivity]. unfold send, send_num, after_whole. cbn [cz plain].
    replace (ends (plain c)) with false by chars. replace (is_digit c) with false by chars. replace (c =? 95) with false by lia. replace (c =? 46) with false by lia.
    replace (is_exp_d c) with false by chars. replace (is_exp_e c) with false by chars. replace ((c =? 45) || (c =? 84)) with true by lia.
    apply start_ts_spec; auto.
Qed.

(** * A whole timestamp *)
Lemma ts_end v prev st nxt toks c k : nxt = XTerm \/ nxt = XDigitsTerm -> ends c = true -> cz c <> 47 -> send v (HTs prev st nxt toks true) c k = emits k (thunk_event v k (parse_ts toks)).
Proof.
  intros N E S. unfold send, send_ts, number_end. cbn [andb negb]. replace (cz c =? 47) with false by lia.
  destruct c as [z e g|].
  - cbn [cz is_eof]. rewrite orb_false_r. assert (T : is_term z = true) by (unfold ends in E; cbn [cz is_eof] in E; rewrite orb_false_r in E; exact E).
    rewrite T. replace (ts_allows nxt z) with true by (destruct N as [->| ->]; cbn [ts_allows]; rewrite T; rewrite ?orb_true_r; reflexivity). reflexivity.
  - cbn [cz is_eof negb]. rewrite andb_false_r, orb_true_r. reflexivity.
Qed.
Lemma ts_token y c rest toks : length y = 4%nat -> Forall dec_char y -> c = 45 \/ c = 84 ->
  (forall v f an, exists prev st nxt, (nxt = XTerm \/ nxt = XDigitsTerm) /\ hrun v (ts_start c y) (stamp f an y) rest (HTs prev st nxt toks true) (stamp f an y)) ->
  reads (y ++ c :: rest) TTimestamp (EvLazy (parse_ts toks)).
Proof.
  intros L D C R. apply plain_reads. intros uni p f an. destruct (R (penv uni p) f an) as (prev & st & nxt & N & R1). destruct (year_run (penv uni p) f an y c L D C) as (c0 & r0 & h0 & k0 & E & C0 & SV & KQ & R0).
  exists c0, (r0 ++ rest), h0, k0, (HTs prev st nxt toks true), (stamp f an y).
  split; [change (c :: rest) with ([c] ++ rest); rewrite app_assoc, E; reflexivity|]. split; [chars|]. split; [chars|]. split; [chars|]. split; [exact SV|]. split; [exact KQ|].
  split; [eapply hrun_app; [exact R0|exact R1]|]. split; [|split; reflexivity].
  intros ch E1 E2 _. rewrite ts_end by assumption. reflexivity.
Qed.

(** Timestamps the text can carry exactly: a precision, an offset in whole minutes (none below minute
    precision), fields beyond the precision at their defaults, at most 28 digits of fraction, and no
    negative zero for it. *)
Definition ts_textable (t : ts) : Prop :=
  ts_canonical t /\ off_ok (dt_off (ts_dt t)) /\
  match ts_prec t with
  | None => False
  | Some p =>
    (includes p PMonth = false -> dt_month (ts_dt t) = 1) /\
    (includes p PDay = false -> dt_day (ts_dt t) = 1) /\
    (includes p PMinute = false -> dt_hour (ts_dt t) = 0 /\ dt_minute (ts_dt t) = 0 /\ dt_off (ts_dt t) = None) /\
    (includes p PSecond = false -> dt_second (ts_dt t) = 0 /\ ts_frac t = dec_zero)
  end /\
  0 <= d_coef (ts_frac t) /\ ndigits (d_coef (ts_frac t)) <= 28 /\ -999999 <= d_exp (ts_frac t) /\ d_neg (ts_frac t) = false.

Lemma ts_fn t off : ts_textable t -> off = dt_off (ts_dt t) -> forall fr, fr = Some (ts_frac t) \/ fr = None /\ ts_frac t = dec_zero ->
  timestamp_fn (dt_year (ts_dt t)) (dt_month (ts_dt t)) (dt_day (ts_dt t)) (dt_hour (ts_dt t)) (dt_minute (ts_dt t)) (dt_second (ts_dt t)) None
    (match off with None => None | Some o => Some (Z.quot o 3600) end) (match off with None => None | Some o => Some (Z.quot (Z.rem o 3600) 60) end)
    (ts_prec t) None fr = Ok t.
Proof.
  intros (CAN & OFF & _) EO fr FR. pose proof CAN as CAN'. unfold ts_canonical, ts_rebuild in CAN'.
  assert (NEW : timestamp_new (dt_year (ts_dt t)) (dt_month (ts_dt t)) (dt_day (ts_dt t)) (dt_hour (ts_dt t)) (dt_minute (ts_dt t)) (dt_second (ts_dt t)) None (dt_off (ts_dt t)) (ts_prec t) None fr = Ok t).
  { destruct FR as [->|(-> & Z0)]; [exact CAN'|]. rewrite Z0 in CAN'. rewrite <- CAN'. reflexivity. }
  unfold timestamp_fn. rewrite EO. destruct (dt_off (ts_dt t)) as [o|] eqn:O; [|exact NEW]. destruct OFF as (M & B).
  assert (Q : o = 3600 * Z.quot o 3600 + Z.rem o 3600) by (apply Z.quot_rem; lia).
  assert (Q2 : Z.rem o 3600 = 60 * Z.quot (Z.rem o 3600) 60 + Z.rem (Z.rem o 3600) 60) by (apply Z.quot_rem; lia).
  assert (R0 : Z.rem (Z.rem o 3600) 60 = 0).
  { apply Z.rem_divide; [lia|]. apply Z.mod_divide in M; [|lia]. destruct M as (n & ->).
    exists (n - 60 * Z.quot (n * 60) 3600). lia. }
  pose proof (Z.rem_bound_abs o 3600 ltac:(lia)) as RB.
  replace ((Z.quot o 3600 <? -23) || (23 <? Z.quot o 3600)) with false by lia. cbn [bind].
  replace ((Z.quot (Z.rem o 3600) 60 <? -59) || (59 <? Z.quot (Z.rem o 3600) 60)) with false by lia. cbn [bind].
  replace (Z.quot o 3600 * 3600 + Z.quot (Z.rem o 3600) 60 * 60) with o by lia. unfold offset_tz. replace ((o <=? -86400) || (86400 <=? o)) with false by lia. exact NEW.
Qed.

(** The fraction. *)
Lemma fraction_spec fr : frac_valid fr = true -> frac_norm fr = fr -> 0 <= d_coef fr -> d_neg fr = false -> ndigits (d_coef fr) <= 28 -> -999999 <= d_exp fr ->
  fraction_text fr = [] /\ fr = dec_zero \/
  exists d ds, fraction_text fr = 46 :: d :: ds /\ dec_char d /\ Forall dec_char ds /\
    dec_scaleb default_prec (mkdec false (digits_value 10 (d :: ds)) 0) (- zlen (d :: ds)) = Ok fr.
Proof.
  intros V N C0 NG ND EX. unfold fraction_text. destruct ((d_coef fr =? 0) && (0 <=? d_exp fr)) eqn:Z0.
  - left. split; [reflexivity|]. rewrite <- N. unfold frac_norm. destruct fr as [s c e]. cbn in *. destruct ((c =? 0) && (0 <? e)) eqn:Z1; [reflexivity|].
    assert (c = 0) by lia. assert (e = 0) by lia. subst. reflexivity.
  - right. cbv zeta. destruct (frac_exp_bound fr V N C0) as (E0 & E1).
    assert (E2 : d_exp fr < 0). { destruct (Z.eq_dec (d_coef fr) 0); [lia|]. apply E1. lia. }
    assert (LEN : zlen (nat_str (d_coef fr)) <= - d_exp fr).
    { unfold zlen. assert (length (nat_str (d_coef fr)) <= Z.to_nat (- d_exp fr))%nat; [|lia]. apply nat_str_len; [|lia]. rewrite Z2Nat.id by lia.
      destruct (Z.eq_dec (d_coef fr) 0) as [->|]; [split; [lia|apply Z.pow_pos_nonneg; lia]|]. split; [lia|]. apply E1. lia. }
    set (l := repeat 48 (Z.to_nat (- d_exp fr - zlen (nat_str (d_coef fr)))) ++ nat_str (d_coef fr)).
    assert (ZL : zlen l = - d_exp fr). { unfold l, zlen in *. rewrite app_length, repeat_length. lia. }
    assert (DL : Forall dec_char l) by (apply Forall_app; split; [apply repeat_zero_dec|apply nat_str_chars; exact C0]).
    assert (VL : digits_value 10 l = d_coef fr) by (unfold l; rewrite digits_value_zeros; apply nat_str_value; exact C0).
    clearbody l. destruct l as [|d ds]; [cbn in ZL; lia|]. exists d, ds. split; [reflexivity|]. inversion DL; subst. split; [assumption|]. split; [assumption|].
    rewrite VL, ZL. unfold dec_scaleb. cbn [d_neg d_coef d_exp]. replace (_ || _) with false by (unfold dec_Emax, default_prec; lia).
    replace (0 + - - d_exp fr) with (d_exp fr) by lia.
    destruct (Z.eq_dec (d_coef fr) 0) as [Z1|Z1].
    + unfold dec_fix. cbn [d_neg d_coef d_exp]. rewrite Z1. cbn [Z.eqb]. destruct fr as [s c e]. cbn [d_neg d_coef d_exp] in *. subst s c. rewrite Z1. do 2 f_equal. unfold dec_Emin, dec_Emax, default_prec. lia.
    + rewrite dec_fix_exact; [destruct fr as [s c e]; cbn in *; subst s; reflexivity|..]; cbn [d_neg d_coef d_exp]; unfold default_prec, dec_Emin, dec_Emax; lia.
Qed.


Lemma parse_nine a0 a1 a2 a3 a4 a5 a6 a7 a8 : parse_ts [a0; a1; a2; a3; a4; a5; a6; a7; a8] =
  let* (oh, om) :=
    match a7 with
    | Some h =>
      match a8 with
      | None => Err AssertionError
      | Some m =>
        let neg := mem 45 h in
        let oh := parse_int10 h in
        let om := parse_int10 m * (if neg then -1 else 1) in
        if neg && (oh =? 0) && (om =? 0) then Ok (None, None) else Ok (Some oh, Some om)
      end
    | None => match a8 with None => Ok (None, None) | Some _ => Err AssertionError end
    end in
  let* y := match a0 with None => Err AssertionError | Some y => Ok (parse_int10 y) end in
  let '(mo, p) := match a1 with None => (1, PYear) | Some m => (parse_int10 m, PMonth) end in
  let '(d, p) := match a2 with None => (1, p) | Some d => (parse_int10 d, PDay) end in
  let* (h, mi, p) :=
    match a3 with
    | None => match a4 with None => Ok (0, 0, p) | Some _ => Err AssertionError end
    | Some h => match a4 with
                | None => Err AssertionError
                | Some m => Ok (parse_int10 h, parse_int10 m, PMinute) end
    end in
  let* (s, f, p) :=
    match a5 with
    | None => Ok (0, None, p)
    | Some s =>
      let* f := match a6 with
                | None => Ok None
                | Some f => let* x := dec_scaleb default_prec (mkdec false (digits_value 10 f) 0) (- zlen f) in Ok (Some x)
                end in
      Ok (parse_int10 s, f, PSecond)
    end in
  let* t := timestamp_fn y mo d h mi s None oh om (Some p) None f in
  Ok (VTimestamp (TsStamp t)).
Proof. reflexivity. Qed.

Theorem stamp_reads t : ts_textable t -> exists w, datetime_text (TsStamp t) = Ok w /\ reads w TTimestamp (EvLazy (Ok (VTimestamp (TsStamp t)))).
Proof.
  intros TX. pose proof TX as (CAN & OFF & PR & C0 & ND & EX & NG). destruct (canonical_inv t CAN) as (OK & V & N & _).
  destruct OK as (Y & (MO & DA) & H & MI & SE & _).
  assert (DA' : 0 <= dt_day (ts_dt t) < 100). { assert (days_in_month (dt_year (ts_dt t)) (dt_month (ts_dt t)) <= 31) by (unfold days_in_month; repeat match goal with |- context [if ?b then _ else _] => destruct b end; lia). lia. }
  destruct (padded 4 (dt_year (ts_dt t)) ltac:(cbn; lia) ltac:(lia)) as (YL & YD & YV). fold (year_text (dt_year (ts_dt t))) in *.
  unfold datetime_text. destruct (ts_prec t) as [p|] eqn:P; [|destruct PR]. destruct PR as (D1 & D2 & D3 & D4).
  pose proof (ts_fn t _ TX eq_refl) as FN. rewrite P in FN. pose proof (off_tokens _ OFF) as OT.
  set (y := year_text (dt_year (ts_dt t))) in *. clearbody y.
  assert (YP : parse_int10 y = dt_year (ts_dt t)) by (rewrite parse_dec; assumption).
  destruct (includes p PMonth) eqn:I1; cbn [negb].
  2:{ (* a year *)
    exists (y ++ [84]). split; [reflexivity|]. replace (Ok (VTimestamp (TsStamp t))) with (parse_ts [Some y; None; None; None; None; None; None; None; None]).
    - apply (ts_token y 84 []); auto. intros v f an. exists 84, 0, XDigitsTerm. split; [auto|constructor].
    - assert (p = PYear) by (destruct p; cbn in I1; congruence). subst p. destruct (D3 eq_refl) as (H0 & M0 & O0). destruct (D4 eq_refl) as (S0 & F0).
      rewrite parse_nine. cbn [bind]. rewrite YP.
      specialize (FN None (or_intror (conj eq_refl F0))). rewrite O0, (D1 eq_refl), (D2 eq_refl), H0, M0, S0 in FN. rewrite FN. reflexivity. }
  destruct (two_spec (dt_month (ts_dt t)) ltac:(lia)) as (m1 & m2 & -> & MD1 & MD2 & MV).
  assert (MP : parse_int10 [m1; m2] = dt_month (ts_dt t)) by (rewrite parse_dec; auto).
  assert (RM : forall v f an, hrun v (ts_start 45 y) (stamp f an y) [m1; m2] (HTs m2 1 XYearDelim [Some y; Some [m1; m2]; None; None; None; None; None; None; None] false) (stamp f an y)).
  { intros v f an. exact (ts_two v f an y 45 0 XDigits _ _ m1 m2 MD1 MD2 ltac:(auto) ltac:(lia) ltac:(lia)). }
  destruct (includes p PDay) eqn:I2; cbn [negb].
  2:{ (* a month *)
    exists (y ++ 45 :: [m1; m2] ++ [84]). split; [rewrite <- app_assoc; reflexivity|]. replace (Ok (VTimestamp (TsStamp t))) with (parse_ts [Some y; Some [m1; m2]; None; None; None; None; None; None; None]).
    - apply (ts_token y 45 ([m1; m2] ++ [84])); auto. intros v f an. exists 84, 1, XDigitsTerm. split; [auto|]. eapply hrun_app; [apply RM|]. apply hrun_one; [|reflexivity|reflexivity]. apply ts_tee. reflexivity.
    - assert (p = PMonth) by (destruct p; cbn in I1, I2; congruence). subst p. destruct (D3 eq_refl) as (H0 & M0 & O0). destruct (D4 eq_refl) as (S0 & F0).
      rewrite parse_nine. cbn [bind]. rewrite YP, MP.
      specialize (FN None (or_intror (conj eq_refl F0))). rewrite O0, (D2 eq_refl), H0, M0, S0 in FN. rewrite FN. reflexivity. }
  destruct (two_spec (dt_day (ts_dt t)) DA') as (d1 & d2 & -> & DD1 & DD2 & DV).
  assert (DP : parse_int10 [d1; d2] = dt_day (ts_dt t)) by (rewrite parse_dec; auto).
  assert (RD : forall v f an, hrun v (ts_start 45 y) (stamp f an y) ([m1; m2] ++ 45 :: [d1; d2] ++ [84]) (HTs 84 2 XDigitsTerm [Some y; Some [m1; m2]; Some [d1; d2]; None; None; None; None; None; None] true) (stamp f an y)).
  { intros v f an. eapply hrun_app; [apply RM|]. eapply h_cons; [apply ts_delim; reflexivity|reflexivity|reflexivity|].
    eapply hrun_app; [exact (ts_two v f an y 45 1 XDigits _ _ d1 d2 DD1 DD2 ltac:(auto) ltac:(lia) ltac:(lia))|]. apply hrun_one; [|reflexivity|reflexivity]. apply ts_tee. reflexivity. }
  destruct (includes p PMinute) eqn:I3; cbn [negb].
  2:{ (* a day *)
    exists (y ++ 45 :: [m1; m2] ++ 45 :: [d1; d2] ++ [84]). split; [rewrite <- !app_assoc; reflexivity|]. replace (Ok (VTimestamp (TsStamp t))) with (parse_ts [Some y; Some [m1; m2]; Some [d1; d2]; None; None; None; None; None; None]).
    - apply (ts_token y 45 _); auto. intros v f an. exists 84, 2, XDigitsTerm. auto.
    - assert (p = PDay) by (destruct p; cbn in I1, I2, I3; congruence). subst p. destruct (D3 eq_refl) as (H0 & M0 & O0). destruct (D4 eq_refl) as (S0 & F0).
      rewrite parse_nine. cbn [bind]. rewrite YP, MP, DP.
      specialize (FN None (or_intror (conj eq_refl F0))). rewrite O0, H0, M0, S0 in FN. rewrite FN. reflexivity. }
  destruct (two_spec (dt_hour (ts_dt t)) ltac:(lia)) as (h1 & h2 & -> & HD1 & HD2 & HV).
  assert (HP : parse_int10 [h1; h2] = dt_hour (ts_dt t)) by (rewrite parse_dec; auto).
  destruct (two_spec (dt_minute (ts_dt t)) ltac:(lia)) as (i1 & i2 & -> & ID1 & ID2 & IV).
  assert (IP : parse_int10 [i1; i2] = dt_minute (ts_dt t)) by (rewrite parse_dec; auto).
  assert (RI : forall v f an, hrun v (ts_start 45 y) (stamp f an y) (([m1; m2] ++ 45 :: [d1; d2] ++ [84]) ++ [h1; h2] ++ 58 :: [i1; i2])
     (HTs i2 4 XOffColon [Some y; Some [m1; m2]; Some [d1; d2]; Some [h1; h2]; Some [i1; i2]; None; None; None; None] false) (stamp f an y)).
  { intros v f an. eapply hrun_app; [apply RD|]. eapply hrun_app; [exact (ts_two v f an y 84 2 XDigitsTerm _ _ h1 h2 HD1 HD2 ltac:(auto) ltac:(lia) ltac:(lia))|].
    eapply h_cons; [apply ts_delim; reflexivity|reflexivity|reflexivity|]. exact (ts_two v f an y 58 3 XDigits _ _ i1 i2 ID1 ID2 ltac:(auto) ltac:(lia) ltac:(lia)). }
  destruct (includes p PSecond) eqn:I4; cbn [negb].
  2:{ (* a minute *)
    exists (y ++ 45 :: (([m1; m2] ++ 45 :: [d1; d2] ++ [84]) ++ [h1; h2] ++ 58 :: [i1; i2]) ++ offset_text (dt_off (ts_dt t))). split; [cbn [app]; repeat rewrite <- app_assoc; cbn [app]; reflexivity|].
    replace (Ok (VTimestamp (TsStamp t))) with (parse_ts [Some y; Some [m1; m2]; Some [d1; d2]; Some [h1; h2]; Some [i1; i2]; None; None; Some (off_h (dt_off (ts_dt t))); Some (off_m (dt_off (ts_dt t)))]).
    - apply (ts_token y 45 _); auto. intros v f an.
      destruct (ts_offset v f an y (dt_off (ts_dt t)) i2 4 XOffColon [Some y; Some [m1; m2]; Some [d1; d2]; Some [h1; h2]; Some [i1; i2]; None; None; None; None] false OFF) as (pr & st & R);
        [intros c C; cbn [ts_allows]; rewrite C; reflexivity|lia|reflexivity|].
      exists pr, st, XTerm. split; [auto|]. eapply hrun_app; [apply RI|exact R].
    - assert (p = PMinute) by (destruct p; cbn in I1, I2, I3, I4; congruence). subst p. destruct (D4 eq_refl) as (S0 & F0).
      rewrite parse_nine. rewrite OT. cbn [bind]. rewrite YP, MP, DP, HP, IP.
      specialize (FN None (or_intror (conj eq_refl F0))). rewrite S0 in FN. rewrite FN. reflexivity. }
  destruct (two_spec (dt_second (ts_dt t)) ltac:(lia)) as (s1 & s2 & -> & SD1 & SD2 & SV).
  assert (SP : parse_int10 [s1; s2] = dt_second (ts_dt t)) by (rewrite parse_dec; auto).
  assert (p = PSecond) by (destruct p; cbn in I1, I2, I3, I4; congruence). subst p.
  assert (RS : forall v f an, hrun v (ts_start 45 y) (stamp f an y) ((([m1; m2] ++ 45 :: [d1; d2] ++ [84]) ++ [h1; h2] ++ 58 :: [i1; i2]) ++ 58 :: [s1; s2])
     (HTs s2 5 XOffDot [Some y; Some [m1; m2]; Some [d1; d2]; Some [h1; h2]; Some [i1; i2]; Some [s1; s2]; None; None; None] false) (stamp f an y)).
  { intros v f an. eapply hrun_app; [apply RI|]. eapply h_cons; [apply ts_delim; reflexivity|reflexivity|reflexivity|]. exact (ts_two v f an y 58 4 XDigits _ _ s1 s2 SD1 SD2 ltac:(auto) ltac:(lia) ltac:(lia)). }
  exists (y ++ 45 :: ((([m1; m2] ++ 45 :: [d1; d2] ++ [84]) ++ [h1; h2] ++ 58 :: [i1; i2]) ++ 58 :: [s1; s2]) ++ fraction_text (ts_frac t) ++ offset_text (dt_off (ts_dt t))).
  split; [cbn [app]; repeat rewrite <- app_assoc; cbn [app]; reflexivity|].
  destruct (fraction_spec (ts_frac t) V N C0 NG ND EX) as [(-> & F0)|(d & ds & -> & FD & FDS & FS)].
  - replace (Ok (VTimestamp (TsStamp t))) with (parse_ts [Some y; Some [m1; m2]; Some [d1; d2]; Some [h1; h2]; Some [i1; i2]; Some [s1; s2]; None; Some (off_h (dt_off (ts_dt t))); Some (off_m (dt_off (ts_dt t)))]).
    + apply (ts_token y 45 _); auto. intros v f an.
      destruct (ts_offset v f an y (dt_off (ts_dt t)) s2 5 XOffDot [Some y; Some [m1; m2]; Some [d1; d2]; Some [h1; h2]; Some [i1; i2]; Some [s1; s2]; None; None; None] false OFF) as (pr & st & R);
        [intros c C; cbn [ts_allows]; rewrite C; reflexivity|lia|reflexivity|].
      exists pr, st, XTerm. split; [auto|]. eapply hrun_app; [apply RS|exact R].
    + rewrite parse_nine. rewrite OT. cbn [bind]. rewrite YP, MP, DP, HP, IP, SP. rewrite (FN None (or_intror (conj eq_refl F0))). reflexivity.
  - replace (Ok (VTimestamp (TsStamp t))) with (parse_ts [Some y; Some [m1; m2]; Some [d1; d2]; Some [h1; h2]; Some [i1; i2]; Some [s1; s2]; Some (d :: ds); Some (off_h (dt_off (ts_dt t))); Some (off_m (dt_off (ts_dt t)))]).
    + apply (ts_token y 45 _); auto. intros v f an.
      destruct (ts_fdigits v f an y ds FDS d [Some y; Some [m1; m2]; Some [d1; d2]; Some [h1; h2]; Some [i1; i2]; Some [s1; s2]; Some [d]; None; None] false [d] FD eq_refl eq_refl) as (pf & cf & RF).
      destruct (ts_offset v f an y (dt_off (ts_dt t)) pf 6 XDigitsOff [Some y; Some [m1; m2]; Some [d1; d2]; Some [h1; h2]; Some [i1; i2]; Some [s1; s2]; Some (d :: ds); None; None] cf OFF) as (pr & st & R);
        [intros c C; cbn [ts_allows]; rewrite C, orb_true_r; reflexivity|lia|reflexivity|].
      exists pr, st, XTerm. split; [auto|]. eapply hrun_app; [apply RS|]. cbn [app].
      eapply h_cons; [apply ts_delim; reflexivity|reflexivity|reflexivity|]. eapply h_cons; [apply ts_frac_first; [exact FD|reflexivity]|reflexivity|reflexivity|].
      eapply hrun_app; [exact RF|exact R].
    + rewrite parse_nine. rewrite OT. cbn [bind]. rewrite FS. cbn [bind]. rewrite YP, MP, DP, HP, IP, SP. rewrite (FN (Some (ts_frac t)) (or_introl eq_refl)). reflexivity.
Qed.

(** A plain [datetime] is a timestamp with six digits of fraction. *)
Definition stamp_of (d : dtime) : ts := mkts d (Some PSecond) 6 (mkdec false (dt_micro d) (-6)).
Lemma plain_stamp_text d : datetime_text (TsPlain d) = datetime_text (TsStamp (stamp_of d)).
Proof.
  unfold datetime_text. cbn [stamp_of ts_dt ts_prec ts_frac includes prec_rank Z.leb Z.compare Pos.compare Pos.compare_cont negb]. unfold fraction_text. cbn [d_coef d_exp].
  rewrite andb_false_r. unfold pad. replace (Z.to_nat (- -6 - zlen (nat_str (dt_micro d)))) with (6 - length (nat_str (dt_micro d)))%nat by (unfold zlen; lia). reflexivity.
Qed.
Definition textable (v : tsvalue) : Prop := match v with TsStamp t => ts_textable t | TsPlain d => ts_textable (stamp_of d) end.
Definition stamp_as (v : tsvalue) : ts := match v with TsStamp t => t | TsPlain d => stamp_of d end.
Theorem timestamp_reads x : textable x -> exists w, datetime_text x = Ok w /\ reads w TTimestamp (EvLazy (Ok (VTimestamp (TsStamp (stamp_as x))))).
Proof. destruct x as [t|d]; intros H; [now apply stamp_reads|]. rewrite plain_stamp_text. now apply stamp_reads. Qed.
