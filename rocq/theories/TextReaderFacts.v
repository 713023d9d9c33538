(** How the text reader's machine takes and puts back characters, and that it always answers. *)
From Verif Require Import Base BaseFacts CoreModel BinReaderModel TextNumbers TextWriterModel TextReaderModel.
Local Open Scope Z_scope.

(** * What the handlers put back *)

(** The handlers that may put a character back. *)
Definition back_rank (h : hs) : nat :=
  match h with HNeg | HSexpSlash _ _ | HLong _ _ _ _ | HKwOp _ | HUnqOp _ | HBrace => 1 | _ => 0 end.

Definition goes_lower (h : hs) (t : trans) (k : tctx) : Prop :=
  match t with
  | TGo h' => (back_rank h' < back_rank h)%nat
  | TEv _ (Some (Some h', _)) => k_comp k = true /\ (back_rank h' < back_rank h)%nat
  | _ => False
  end.
(** A put-back character is the one just sent, and the next handler does not put it back again. *)
Definition back_ok (h : hs) (c : ch) (a : answer) : Prop :=
  let '(t, k, u) := a in
  u = [] \/
  (exists z e g, c = Ch z e g /\ u = [z]) /\
  goes_lower h t k.

Ltac crush_res :=
  repeat match goal with
  | H : context [match ?x with _ => _ end] |- _ => destruct x eqn:?; try discriminate
  | H : (let* _ := ?x in _) = Ok _ |- _ => destruct x eqn:?; cbn [bind] in H; try discriminate
  end.

Lemma no_back (r : res answer) a : r = Ok a -> (exists t k, r = Ok (t, k, [])) \/ (forall t k u, r <> Ok (t, k, u)) -> forall h c, back_ok h c a.
Proof.
  intros -> [(t & k & E)|N] h c.
  - injection E as ->. now left.
  - destruct a as [[t k] u]. destruct (N t k u). reflexivity.
Qed.

(** An answer that puts nothing back. *)
Definition clean (r : res answer) : Prop := forall t k u, r = Ok (t, k, u) -> u = [].
Lemma clean_err e : clean (Err e). Proof. intros ? ? ? ?. discriminate. Qed.
Lemma clean_illegal : clean illegal. Proof. apply clean_err. Qed.
Lemma clean_ok t k : clean (Ok (t, k, [])).
Proof. intros ? ? ? E. now injection E. Qed.
Lemma clean_go k h : clean (go k h). Proof. apply clean_ok. Qed.
Lemma clean_back k : clean (back k). Proof. apply clean_ok. Qed.
Lemma clean_emits k ev : clean (emits k ev). Proof. apply clean_ok. Qed.
Lemma clean_emits_then k ev h k' : clean (emits_then k ev h k'). Proof. apply clean_ok. Qed.
Lemma clean_bind {A} (x : res A) f : (forall a, clean (f a)) -> clean (let* a := x in f a).
Proof. intros H. destruct x; cbn [bind]; [apply H|apply clean_err]. Qed.
Lemma clean_if (b : bool) x y : clean x -> clean y -> clean (if b then x else y).
Proof. destruct b; auto. Qed.

Ltac clean_tac :=
  repeat first
  [ apply clean_err | apply clean_illegal | apply clean_go | apply clean_back | apply clean_emits | apply clean_emits_then
  | apply clean_ok | (apply clean_bind; let a := fresh "a" in intros a) | apply clean_if
  | match goal with |- clean (match ?x with _ => _ end) => destruct x end ].

Lemma clean_start_numeric n c k : clean (start_numeric n c k).
Proof. unfold start_numeric. clean_tac. Qed.
Lemma clean_start_ts c k : clean (start_ts c k).
Proof. unfold start_ts. cbv zeta. clean_tac. Qed.
Lemma clean_number_end v c k r : clean (number_end v c k r).
Proof. unfold number_end. cbv zeta. clean_tac. Qed.
Lemma clean_symbol_end v c k f s : clean (symbol_end v c k f s).
Proof. unfold symbol_end. clean_tac. Qed.
Lemma clean_go_unquoted v c k f : clean (go_unquoted v c k f).
Proof. unfold go_unquoted. clean_tac. Qed.
Lemma clean_go_oper c k : clean (go_oper c k).
Proof. unfold go_oper. clean_tac. Qed.
Lemma clean_start_long k f : clean (start_long k f).
Proof. unfold start_long. cbv zeta. clean_tac. Qed.
Lemma clean_start_string k f : clean (start_string k f).
Proof. unfold start_string. cbv zeta. clean_tac. Qed.
Lemma clean_start_blob c k : clean (start_blob c k).
Proof. unfold start_blob. cbv zeta. clean_tac. Qed.
Lemma clean_start_clob_end c k : clean (start_clob_end c k).
Proof. unfold start_clob_end. cbv zeta. clean_tac. Qed.
Lemma clean_start_zero c k : clean (start_zero c k).
Proof. unfold start_zero. clean_tac. Qed.
#[export] Hint Resolve clean_start_numeric clean_start_ts clean_number_end clean_symbol_end clean_go_unquoted clean_go_oper
  clean_start_long clean_start_string clean_start_blob clean_start_clob_end clean_start_zero : clean.
Ltac cl :=
  cbv zeta;
  repeat first
  [ solve [auto 1 with clean nocore]
  | apply clean_err | apply clean_illegal | apply clean_go | apply clean_back | apply clean_emits | apply clean_emits_then
  | apply clean_ok | (apply clean_bind; let a := fresh "a" in intros a) | apply clean_if
  | match goal with |- clean (match ?x with _ => _ end) => destruct x end ].

Lemma clean_send_numeric v n p c k : clean (send_numeric v n p c k).
Proof. unfold send_numeric. cl. Qed.
Lemma clean_send_num v c k : clean (send_num v c k).
Proof. unfold send_num. cl. Qed.
Lemma clean_send_zero v c k : clean (send_zero v c k).
Proof. unfold send_zero. cl. Qed.
Lemma clean_send_ts_zero c k : clean (send_ts_zero c k).
Proof. unfold send_ts_zero. cl. Qed.
Lemma clean_send_ts v p s n t b c k : clean (send_ts v p s n t b c k).
Proof. unfold send_ts. cl. Qed.
Lemma clean_send_unquoted v p f c k : clean (send_unquoted v p f c k).
Proof. unfold send_unquoted. cl. Qed.
Lemma clean_send_dollar v p i co s m po f c k : clean (send_dollar v p i co s m po f c k).
Proof. unfold send_dollar. cl. Qed.
Lemma clean_send_null v s c k : clean (send_null v s c k).
Proof. unfold send_null. cl. Qed.
Lemma check_keyword_clean v s t x d m f c k b a : check_keyword v s t x d m f c k = Ok (b, Some a) -> exists t k', a = (t, k', []).
Proof.
  unfold check_keyword. intros H.
  repeat match type of H with
  | Ok _ = Ok _ => injection H; clear H; intros; subst; eauto
  | (if ?x then _ else _) = _ => destruct x
  | _ => discriminate
  end.
Qed.
Lemma clean_send_kw v a b t f m i c k : clean (send_kw v a b t f m i c k).
Proof.
  unfold send_kw. intros T K U E.
  apply bind_ok in E. destruct E as ([n1 t1] & E1 & E).
  apply bind_ok in E. destruct E as ([[[n2 tr] fl] t2] & E2 & E).
  assert (C1 : forall x, t1 = Some x -> snd x = []).
  { intros x ->. destruct a; [|discriminate]. apply check_keyword_clean in E1. destruct E1 as (? & ? & ->). reflexivity. }
  assert (C2 : forall x, t2 = Some x -> snd x = []).
  { intros x ->. destruct b; [|destruct t; [|destruct f]].
    1-3: apply bind_ok in E2; destruct E2 as ([b2 t2] & E2 & E3); injection E3 as _ _ _ ->;
         apply check_keyword_clean in E2; destruct E2 as (? & ? & ->); reflexivity.
    injection E2 as _ _ _ ->. now apply C1. }
  destruct (n1 || n2 || tr || fl).
  - destruct t2 as [x|].
    + injection E as ->. apply (C2 _ eq_refl).
    + injection E as _ _ <-. reflexivity.
  - revert E. match goal with |- ?x = _ -> _ => enough (C : clean x) by (intros E; exact (C _ _ _ E)) end. cl.
Qed.
Lemma clean_send_inf v n m c k : clean (send_inf v n m c k).
Proof. unfold send_inf. cl. Qed.
Lemma clean_send_string v b f c k : clean (send_string v b f c k).
Proof. unfold send_string. cl. Qed.
Lemma clean_send_quoted_symbol v f c k : clean (send_quoted_symbol v f c k).
Proof. unfold send_quoted_symbol. cl. Qed.
Lemma clean_send_quote1 f c k : clean (send_quote1 f c k).
Proof. unfold send_quote1. cl. Qed.
Lemma clean_send_quote2 f c k : clean (send_quote2 f c k).
Proof. unfold send_quote2. cl. Qed.
Lemma clean_send_lob0 q c k : clean (send_lob0 q c k).
Proof. unfold send_lob0. cl. Qed.
Lemma clean_send_blob v p d q c k : clean (send_blob v p d q c k).
Proof. unfold send_blob. cl. Qed.
Lemma clean_send_clob v p c k : clean (send_clob v p c k).
Proof. unfold send_clob. cl. Qed.
Lemma clean_comment_done w k : clean (comment_done w k).
Proof. unfold comment_done. cl. Qed.
#[export] Hint Resolve clean_send_numeric clean_send_num clean_send_zero clean_send_ts_zero clean_send_ts clean_send_unquoted
  clean_send_dollar clean_send_null clean_send_kw clean_send_inf clean_send_string clean_send_quoted_symbol clean_send_quote1
  clean_send_quote2 clean_send_lob0 clean_send_blob clean_send_clob clean_comment_done : clean.

(** What a put-back answer goes on with. *)
Lemma putting_back_ok v c r h a :
  putting_back v c r = Ok a ->
  (forall t k u, r = Ok (t, k, u) -> goes_lower h t k) ->
  back_ok h c a.
Proof.
  unfold putting_back. intros E H. apply bind_ok in E. destruct E as (u & Eu & E).
  apply bind_ok in E. destruct E as ([[t k] u'] & Er & E). injection E as <-.
  right. split; [|now apply (H t k u')].
  destruct c as [z e g|]; [|discriminate]. injection Eu as <-. eauto.
Qed.

Lemma start_oper_is c k h k' : start_oper c k = Ok (h, k') -> h = HOper.
Proof.
  unfold start_oper. intros E. destruct (is_op c); [|discriminate]. apply bind_ok in E. destruct E as (? & _ & E).
  now injection E.
Qed.

Theorem send_back v h c k a : send v h c k = Ok a -> back_ok h c a.
Proof.
  intros E.
  assert (CL : clean (send v h c k) -> back_ok h c a).
  { intros C. destruct a as [[t k'] u]. left. exact (C _ _ _ E). }
  destruct h; cbn [send] in *; try (apply CL; solve [cl]).
  - (* HNeg *)
    cbv zeta in E, CL. destruct (cz c =? 48); [apply CL; cl|]. destruct (is_digit (cz c)); [apply CL; cl|].
    eapply putting_back_ok; [exact E|]. intros t k0 u E0. injection E0 as <- _ _. cbn. lia.
  - (* HSexpSlash *)
    eapply putting_back_ok; [exact E|]. intros t k0 u E0.
    destruct ((cz c =? 42) || (cz c =? 47)).
    + injection E0 as <- _ _. cbn. lia.
    + destruct ev as [e|].
      * apply bind_ok in E0. destruct E0 as ([h' k'] & E1 & E2). injection E2 as <- <- _.
        apply start_oper_is in E1. subst h'. cbn. split; [reflexivity|lia].
      * unfold go_oper in E0. apply bind_ok in E0. destruct E0 as ([h' k'] & E1 & E2). injection E2 as <- _ _.
        unfold start_oper in E1. destruct (is_op 47); [|discriminate]. apply bind_ok in E1. destruct E1 as (? & _ & E1).
        injection E1 as <- _. cbn. lia.
  - (* HLong *)
    unfold send_long in *. cbv zeta in *.
    destruct ((cz c =? 39) && negb (escaped c)); [apply CL; cl|].
    destruct in_data; [apply CL; cl|].
    destruct (0 <? quotes); [|apply CL; cl].
    destruct (is_field || is_clob); [discriminate|].
    destruct (is_delimited (e_type v)); [discriminate|].
    destruct (quotes =? 1); [|apply CL; cl].
    destruct (is_eof c); [discriminate|].
    eapply putting_back_ok; [exact E|]. intros t k0 u E0. injection E0 as <- _ _. cbn. lia.
  - (* HKwOp *)
    eapply putting_back_ok; [exact E|]. intros t k0 u E0.
    unfold go_oper in E0. apply bind_ok in E0. destruct E0 as ([h' k'] & E1 & E2). injection E2 as <- _ _.
    unfold start_oper in E1. destruct (is_op c0); [|discriminate]. apply bind_ok in E1. destruct E1 as (? & _ & E1).
    injection E1 as <- _. cbn. lia.
  - (* HUnqOp *)
    eapply putting_back_ok; [exact E|]. intros t k0 u E0.
    destruct (k_val k) eqn:?; [discriminate|]. apply bind_ok in E0. destruct E0 as (e & _ & E0).
    apply bind_ok in E0. destruct E0 as ([h' k'] & E1 & E2). injection E2 as <- <- _.
    apply start_oper_is in E1. subst h'. cbn. split; [reflexivity|lia].
  - (* HBrace *)
    cbv zeta in *. destruct (cz c =? 123); [apply CL; cl|].
    eapply putting_back_ok; [exact E|]. intros t k0 u E0. injection E0 as <- _ _. cbn. lia.
Qed.

(** * Every send is answered *)

Definition rank (s : tcore) : nat :=
  match t_pc s with
  | PTop (Some _) => match pending (t_child s) with Some _ => 14 | None => 13 end
  | PTop None => 12
  | PRead KTop _ _ | PRead KColon _ _ => 1
  | PRead (KTok h) _ _ => match back_rank h with O => 1 | _ => 4 end
  | PRead (KCode (CReturn _) h) _ _ => match back_rank h with O => 15 | _ => 20 end
  | PRead (KCode _ h) _ _ => match back_rank h with O => 3 | _ => 8 end
  | PWait _ _ _ => 0
  end.
Definition weight (s : tcore) (q : list Z) : nat := (16 * List.length q + rank s)%nat.

Lemma rank_le s : (rank s <= 20)%nat.
Proof.
  unfold rank. destruct (t_pc s) as [[]|[| |h|[] h]|]; cbn; try lia; try (destruct (pending (t_child s)); lia);
  destruct h; cbn; lia.
Qed.

Lemma token_pc_rank s s' h b k : (rank (with_pc s (token_pc s' h b k)) <= match back_rank h with O => 3 | _ => 8 end)%nat.
Proof. unfold token_pc, rank. cbn [t_pc with_pc]. destruct (k_quoted k || b); cbn; destruct h; cbn; lia. Qed.

Lemma after_back_rank s k c : (rank (after_back s k c) <= 14)%nat.
Proof.
  unfold after_back. cbv zeta. unfold rank.
  repeat match goal with
  | |- context [t_pc (if ?x then _ else _)] => destruct x
  | |- context [t_pc (match ?x with _ => _ end)] => destruct x
  end; cbn [t_pc with_pc t_child with_child with_flags]; try lia; destruct (pending _); lia.
Qed.

Lemma after_event_rank s k ev comp c s' : after_event s k ev comp c = Ok s' ->
  (rank s' <= 14)%nat /\ (forall h k', k_comp k = true -> comp = Some (Some h, k') -> back_rank h = O -> rank s' <= 3)%nat.
Proof.
  unfold after_event. intros E. apply bind_ok in E. destruct E as ([[next child] self] & En & E).
  assert (C : forall h k', k_comp k = true -> comp = Some (Some h, k') -> next = Some h /\ child = Some k' /\ self = false).
  { intros h k' Hk ->. rewrite Hk in En. injection En as <- <- <-. auto. }
  destruct (is_container_start ev).
  - destruct next as [h|]; [discriminate|]. destruct (ev_ion_type ev) as [t|]; [|discriminate]. injection E as <-.
    split.
    + unfold rank, open_container. cbn [t_pc t_child pending]. destruct c; lia.
    + intros h k' Hk Hc. destruct (C h k' Hk Hc) as (? & _). discriminate.
  - cbv zeta in E. destruct self.
    + injection E as <-. unfold rank; cbn. split; [lia|]. intros; lia.
    + destruct next as [h|].
      * destruct child as [k'|].
        -- injection E as <-. match goal with |- context [token_pc ?x ?y ?z ?w] => pose proof (fun s => token_pc_rank s x y z w) as R end.
           match goal with |- context [rank (with_pc ?x _)] => specialize (R x) end.
           split; [destruct (back_rank h); lia|]. intros h0 k0 Hk Hc B. destruct (C h0 k0 Hk Hc) as (Eh & _). injection Eh as ->.
           rewrite B in R. exact R.
        -- injection E as <-. split; [unfold rank; cbn; destruct c; lia|].
           intros h0 k0 Hk Hc. destruct (C h0 k0 Hk Hc) as (_ & Ec & _). discriminate.
      * injection E as <-. split; [unfold rank; cbn [t_pc with_pc]; destruct c; [destruct (pending _)|]; lia|].
        intros h0 k0 Hk Hc. destruct (C h0 k0 Hk Hc) as (Eh & _). discriminate.
Qed.

(** The result of a handler's answer. *)
Lemma handled_rank s c a s' u h ev : handled s c a = Ok (s', ev, u) -> back_ok h c a ->
  (u = [] /\ rank s' <= 14)%nat \/
  (exists z e g, c = Ch z e g /\ u = [z] /\ back_rank h = 1 /\ rank s' <= 3)%nat.
Proof.
  destruct a as [[t k] u0]. unfold handled. intros E B.
  assert (B1 : forall h', (back_rank h' < back_rank h)%nat -> back_rank h = 1%nat /\ back_rank h' = O).
  { intros h' L. destruct h; cbn in L |- *; lia. }
  destruct t as [e comp|h'|].
  - apply bind_ok in E. destruct E as (s1 & Ea & E). injection E as -> _ ->.
    apply after_event_rank in Ea. destruct Ea as (R1 & R2).
    destruct B as [->|((z & e1 & g & -> & ->) & B)]; [left; auto|]. right.
    cbn [goes_lower] in B. destruct comp as [[[h'|] k']|]; try contradiction. destruct B as (Bk & B).
    destruct (B1 _ B). exists z, e1, g. repeat split; auto. now apply (R2 h' k').
  - injection E as <- _ <-.
    match goal with |- context [token_pc ?x ?y ?z ?w] => pose proof (fun s => token_pc_rank s x y z w) as R end.
    match goal with |- context [rank (with_pc ?x _)] => specialize (R x) end.
    destruct B as [->|((z & e & g & -> & ->) & B)].
    + left. split; [reflexivity|]. destruct (back_rank h'); lia.
    + right. destruct (B1 _ B) as (B2 & B3). exists z, e, g. rewrite B3 in R. auto.
  - injection E as <- _ <-. destruct B as [->|(_ & [])]. left. split; [reflexivity|]. apply after_back_rank.
Qed.

Lemma cp_more uni cs z cs' u : cp_step uni cs z = Ok (CMore cs' u) -> u = [] /\ (forall e, cs <> CReturn e).
Proof.
  intros Ec. unfold cp_step in Ec. destruct cs.
  all: try (injection Ec; discriminate).
  all: split; [|discriminate].
  all: repeat match type of Ec with
       | (if ?x then _ else _) = _ => destruct x
       | Ok (CMore _ []) = _ => injection Ec as _ <-; reflexivity
       | escape_done _ _ = _ => unfold escape_done in Ec; apply bind_ok in Ec; destruct Ec as (l & _ & Ec);
                                destruct l as [|? [|]]
       | _ => discriminate
       end.
Qed.
Lemma cp_done uni cs z c u : cp_step uni cs z = Ok (CDone c u) ->
  u = [] \/ u = [z] /\ exists e, cs = CReturn e.
Proof.
  intros Ec. unfold cp_step in Ec. destruct cs.
  4:{ injection Ec as _ <-. destruct (z =? 10); eauto. }
  all: left.
  all: repeat match type of Ec with
       | (if ?x then _ else _) = _ => destruct x
       | Ok (CDone _ []) = _ => injection Ec as _ <-; reflexivity
       | escape_done _ _ = _ => unfold escape_done in Ec; apply bind_ok in Ec; destruct Ec as (l & _ & Ec);
                                destruct l as [|? [|]]
       | _ => discriminate
       end.
Qed.

Lemma take_weight uni s k c s' ev u b f q : take uni s k c = Ok (s', ev, u) ->
  (match c with Ch z false false => weight s' (u ++ q) < weight (with_pc s (PRead k b f)) (z :: q) | _ => True end)%nat /\
  (List.length u <= 2)%nat.
Proof.
  intros E. unfold weight. unfold rank at 2. cbn [t_pc with_pc]. destruct k as [| |h|cs h]; cbn [take] in E.
  - injection E as <- _ <-. split; [|cbn; lia]. destruct c as [z [] []|]; auto. cbn [List.length app].
    unfold rank. cbn [t_pc with_pc]. destruct (pending _); lia.
  - destruct (cz c =? 58); [|discriminate]. destruct (t_child s); [|discriminate]. apply bind_ok in E. destruct E as (x & _ & E).
    injection E as <- _ <-. split; [|cbn; lia]. destruct c as [z [] []|]; auto. cbn [List.length app]. unfold rank. cbn [t_pc with_pc]. lia.
  - destruct (t_child s) as [x|]; [|discriminate]. apply bind_ok in E. destruct E as (a & Es & E).
    apply send_back in Es. destruct (handled_rank _ _ _ _ _ _ _ E Es) as [(-> & R)|(z & e & g & -> & -> & Rh & R)].
    + split; [|cbn; lia]. destruct c as [z [] []|]; auto. cbn [List.length app]. lia.
    + split; [|cbn; lia]. destruct e; [auto|]. destruct g; [auto|]. cbn [List.length app]. rewrite Rh. lia.
  - destruct (t_child s) as [x|]; [|discriminate]. apply bind_ok in E. destruct E as (r & Ec & E).
    destruct r as [cs' u'|c' u'].
    + injection E as <- _ <-. destruct (cp_more _ _ _ _ _ Ec) as (-> & Nr).
      split; [|cbn; lia]. destruct c as [z [] []|]; auto. cbn [List.length app]. unfold rank. cbn [t_pc with_pc].
      destruct cs as [| | |e]; [| | |now destruct (Nr e)]; destruct cs'; destruct (back_rank h); lia.
    + apply bind_ok in E. destruct E as (a & Es & E). apply bind_ok in E. destruct E as ([[s1 ev1] u1] & Eh & E).
      injection E as <- -> <-. apply send_back in Es. pose proof (handled_rank _ _ _ _ _ _ _ Eh Es) as HR.
      destruct (cp_done _ _ _ _ _ Ec) as [->|(-> & e0 & ->)];
        (destruct HR as [(-> & R)|(z1 & e1 & g1 & -> & -> & Rh & R)]; cbn [app List.length]; (split; [|lia]);
         destruct c as [z [] []|]; auto; cbn [List.length app]).
      * lia.
      * destruct cs; rewrite Rh; lia.
      * destruct (back_rank h); lia.
      * rewrite Rh. lia.
Qed.

Lemma top_rank uni s oc s' ev : top uni s oc = Ok (s', ev) -> (rank s' < rank (with_pc s (PTop oc)))%nat.
Proof.
  unfold top. cbv zeta. intros E.
  assert (TP : forall s s0 h b k, (rank (with_pc s (token_pc s0 h b k)) < 13)%nat).
  { intros s1 s0 h b k. pose proof (token_pc_rank s1 s0 h b k). destruct (back_rank h); lia. }
  destruct oc as [c|]; [|injection E as <- _; cbn; lia].
  assert (R13 : (13 <= rank (with_pc s (PTop (Some c))))%nat).
  { unfold rank. cbn [t_pc with_pc]. destruct (pending _); lia. }
  assert (AS : forall p, pending (t_child s) = Some p -> (rank (after_symbol s (Some c)) < rank (with_pc s (PTop (Some c))))%nat).
  { intros p Hp. unfold rank, after_symbol. cbn [t_pc with_pc t_child with_delim with_child pending].
    change (t_child (with_pc s (PTop (Some c)))) with (t_child s). rewrite Hp. lia. }
  destruct (is_end (t_type s) c || is_delim (t_type s) c || is_eof c).
  - apply bind_ok in E. destruct E as (p & Ep & E). destruct p as [e|].
    + injection E as <- _. unfold pending_value in Ep. destruct (t_child s) as [k|] eqn:Ek; [|discriminate].
      destruct (k_pend k) as [x|] eqn:Ex; [|discriminate]. apply (AS x). cbn [pending]. exact Ex.
    + repeat match type of E with
      | Ok (_, _) = Ok (_, _) => injection E as <- _; (eapply Nat.lt_le_trans; [|exact R13]); unfold rank; cbn; lia
      | (match ?x with _ => _ end) = Ok _ => destruct x; try discriminate
      end.
  - destruct (is_ws (cz c)); [injection E as <- _; eapply Nat.lt_le_trans; [|exact R13]; unfold rank; cbn; lia|].
    destruct (cz c =? 47).
    { apply bind_ok in E. destruct E as (h & _ & E). injection E as <- _. eapply Nat.lt_le_trans; [apply TP|exact R13]. }
    change (t_delim (with_flags s (t_complete s) false)) with (t_delim s) in E.
    change (t_child (with_flags s (t_complete s) false)) with (t_child s) in E.
    change (t_field (with_flags s (t_complete s) false)) with (t_field s) in E.
    destruct (t_delim s); [discriminate|].
    assert (G : forall k, (let* x := (if t_field s then start_field (env_of uni s) (cz c) k else start_value (env_of uni s) (cz c) k) in
      (let '(t, k, _) := x in
             match t with
             | TGo h =>
               let s := with_flags (with_child (with_flags s (t_complete s) false) (Some k)) (t_complete s) (negb (t_field s)) in
               if (cz c =? 91) || (cz c =? 40) then
                 let* (t, k, _) := send (env_of uni s) h Eof k in
                 match t with
                 | TEv ev comp => let* s' := after_event s k ev comp None in Ok (s', Some ev)
                 | _ => Err TypeError
                 end
               else Ok (with_pc s (token_pc s h ((cz c =? 34) || (cz c =? 39)) k), None)
             | _ => Err TypeError
             end)) = Ok (s', ev) -> (rank s' < rank (with_pc s (PTop (Some c))))%nat).
    { clear E. intros k E. apply bind_ok in E. destruct E as ([[t k'] u] & Es & E). destruct t as [| h |]; try discriminate.
      cbv zeta in E. destruct ((cz c =? 91) || (cz c =? 40)) eqn:Eb.
      - apply bind_ok in E. destruct E as ([[t k2] u2] & E2 & E). destruct t as [e comp| |]; try discriminate.
        apply bind_ok in E. destruct E as (s2 & E3 & E). injection E as <- _. revert E3 E2.
        assert (Hh : exists t0, h = HCont t0).
        { destruct (t_field s).
          - unfold start_field in Es. replace (cz c =? 39) with false in Es by lia. replace (cz c =? 34) with false in Es by lia.
            replace (cz c =? 36) with false in Es by lia. replace (ident_start (cz c)) with false in Es; [discriminate|].
            unfold ident_start, is_letter. lia.
          - unfold start_value in Es. replace (cz c =? 45) with false in Es by lia. replace (cz c =? 43) with false in Es by lia.
            replace (cz c =? 48) with false in Es by lia. replace (cz c =? 123) with false in Es by lia.
            destruct (cz c =? 40) eqn:E40; [injection Es as <- _ _; eauto|].
            replace (cz c =? 91) with true in Es by lia. injection Es as <- _ _; eauto. }
        destruct Hh as (t0 & ->). cbn [send]. intros E3 E2. injection E2 as <- <- <- _.
        eapply Nat.lt_le_trans; [|exact R13].
        unfold after_event in E3. apply bind_ok in E3. destruct E3 as ([[next child] self] & En & E3).
        destruct (k_comp k'); [discriminate|]. injection En as <- <- <-.
        destruct (is_container_start _).
        + cbn [ev_ion_type value_event] in E3. injection E3 as <-. unfold rank. cbn. lia.
        + destruct (k_self k'); injection E3 as <-; unfold rank; cbn; lia.
      - injection E as <- _. eapply Nat.lt_le_trans; [apply TP|exact R13]. }
    destruct (pending (t_child s)) as [p|] eqn:Ep.
    + destruct (t_child s) as [k|] eqn:Ek; [|discriminate]. destruct (cz c =? 58).
      * destruct (t_field s).
        -- apply bind_ok in E. destruct E as (? & _ & E). injection E as <- _. eapply Nat.lt_le_trans; [|exact R13]; unfold rank; cbn; lia.
        -- injection E as <- _. eapply Nat.lt_le_trans; [|exact R13]; unfold rank; cbn; lia.
      * destruct (t_field s); [destruct p; discriminate|].
        apply bind_ok in E. destruct E as (? & _ & E). injection E as <- _.
        change (after_symbol (with_flags s (t_complete s) false) (Some c)) with
          (with_flags (after_symbol s (Some c)) (t_complete s) false). exact (AS p eq_refl).
    + apply (G (if decorated (t_child s) then match t_child s with Some k => k | None => child_new end else child_new)).
      exact E.
Qed.

Lemma rank_same s p : t_pc s = p -> rank (with_pc s p) = rank s.
Proof. intros <-. destruct s. reflexivity. Qed.

(** Waiting for data. *)
Definition waiting (s : tcore) : bool := match t_pc s with PWait _ _ _ => true | _ => false end.
Lemma token_pc_awake s s' h b k : waiting (with_pc s (token_pc s' h b k)) = false.
Proof. unfold waiting, token_pc. cbn [t_pc with_pc]. destruct (k_quoted k || b); reflexivity. Qed.
Lemma after_event_awake s k ev comp c s' : after_event s k ev comp c = Ok s' -> waiting s' = false.
Proof.
  unfold after_event. intros E. apply bind_ok in E. destruct E as ([[next child] self] & En & E).
  destruct (is_container_start ev).
  - destruct next as [h|]; [discriminate|]. destruct (ev_ion_type ev) as [t|]; [|discriminate]. injection E as <-. reflexivity.
  - cbv zeta in E. destruct self; [injection E as <-; reflexivity|].
    destruct next; [destruct child|]; injection E as <-; try reflexivity. apply token_pc_awake.
Qed.
Lemma after_back_awake s k c : waiting (after_back s k c) = false.
Proof.
  unfold after_back. cbv zeta. unfold waiting.
  repeat match goal with
  | |- context [t_pc (if ?x then _ else _)] => destruct x
  | |- context [t_pc (match ?x with _ => _ end)] => destruct x
  end; reflexivity.
Qed.
Lemma handled_awake s c a s' ev u : handled s c a = Ok (s', ev, u) -> waiting s' = false.
Proof.
  destruct a as [[t k] u0]. unfold handled. intros E. destruct t as [e comp|h'|].
  - apply bind_ok in E. destruct E as (s1 & Ea & E). injection E as -> _ _. exact (after_event_awake _ _ _ _ _ _ Ea).
  - injection E as <- _ _. apply token_pc_awake.
  - injection E as <- _ _. apply after_back_awake.
Qed.
Lemma take_awake uni s k c s' ev u : take uni s k c = Ok (s', ev, u) -> waiting s' = false.
Proof.
  intros E. destruct k as [| |h|cs h]; cbn [take] in E.
  - injection E as <- _ _. reflexivity.
  - destruct (cz c =? 58); [|discriminate]. destruct (t_child s); [|discriminate]. apply bind_ok in E. destruct E as (x & _ & E).
    injection E as <- _ _. reflexivity.
  - destruct (t_child s) as [x|]; [|discriminate]. apply bind_ok in E. destruct E as (a & _ & E). exact (handled_awake _ _ _ _ _ _ E).
  - destruct (t_child s) as [x|]; [|discriminate]. apply bind_ok in E. destruct E as (r & _ & E). destruct r as [cs' u'|c' u'].
    + injection E as <- _ _. reflexivity.
    + apply bind_ok in E. destruct E as (a & _ & E). apply bind_ok in E. destruct E as ([[s1 ev1] u1] & Eh & E).
      injection E as <- _ _. exact (handled_awake _ _ _ _ _ _ Eh).
Qed.
Lemma top_awake uni s oc s' ev : top uni s oc = Ok (s', ev) -> waiting s' = false.
Proof.
  unfold top. cbv zeta. intros E.
  repeat match type of E with
  | Ok (_, _) = Ok (_, _) => injection E as <- _; first [reflexivity | apply token_pc_awake | assumption]
  | illegal = _ => discriminate
  | Err _ = _ => discriminate
  | (let* _ := after_event _ _ _ _ _ in _) = Ok _ =>
    let Ha := fresh in apply bind_ok in E; destruct E as (? & Ha & E); apply after_event_awake in Ha
  | (let* _ := ?x in _) = Ok _ => apply bind_ok in E; destruct E as (? & ? & E)
  | (match ?x with _ => _ end) = Ok _ => destruct x; try discriminate
  end.
Qed.

Definition data_len (d : option devent) : nat := match d with Some (DData l) => List.length l | _ => O end.
(** The delegate waits only after a signal, with nothing in the queue. *)
Lemma delegate_cases uni s q d s' q' ev : delegate uni s q d = Ok (s', q', ev) ->
  (waiting s' = false /\ (waiting s = false -> weight s' q' < weight s q)%nat /\
   (weight s' q' < 16 * (List.length q + data_len d) + 99)%nat) \/
  (exists k c f, s' = with_pc s (PWait k c f) /\ ev = Some (signal c) /\
    (t_pc s = PRead k c f /\ q = [] /\ q' = [] \/ t_pc s = PWait k c f /\ q' = q)).
Proof.
  unfold delegate. intros E. destruct (t_pc s) as [oc|k c f|k c f] eqn:Ep.
  - left. apply bind_ok in E. destruct E as ([s1 ev1] & Et & E). injection E as -> -> ->. split; [exact (top_awake _ _ _ _ _ Et)|].
    apply top_rank in Et. rewrite (rank_same s _ Ep) in Et. pose proof (rank_le s). unfold weight. lia.
  - destruct q as [|z q].
    + injection E as <- <- <-. right. exists k, c, f. auto 8.
    + left. apply bind_ok in E. destruct E as ([[s1 ev1] u] & Et & E). injection E as -> <- ->. split; [exact (take_awake _ _ _ _ _ _ _ Et)|].
      destruct (take_weight uni s k (plain z) s' ev u c f q Et) as (W & _). cbn [plain] in W.
      pose proof (rank_le s). unfold weight in *. rewrite (rank_same s _ Ep) in W. lia.
  - assert (EE : s = with_pc s (PWait k c f)) by (rewrite <- Ep; destruct s; reflexivity).
    destruct d as [[| |l]|].
    + destruct f; [|discriminate]. left. apply bind_ok in E. destruct E as ([[s1 ev1] u] & Et & E). injection E as -> <- ->.
      split; [exact (take_awake _ _ _ _ _ _ _ Et)|]. split; [unfold waiting; rewrite Ep; discriminate|].
      destruct (take_weight uni s k Eof s' ev u c true q Et) as (_ & L). pose proof (rank_le s'). unfold weight.
      rewrite app_length. cbn [data_len]. lia.
    + injection E as <- <- <-. right. exists k, c, f. split; [exact EE|]. auto 8.
    + destruct l as [|x l].
      * injection E as <- <- <-. right. exists k, c, f. split; [exact EE|]. auto 8.
      * injection E as <- <- <-. left. split; [reflexivity|]. split; [unfold waiting; rewrite Ep; discriminate|].
        unfold weight. pose proof (rank_le (with_pc s (PRead k c f))). rewrite app_length. cbn [data_len List.length] in *. lia.
    + injection E as <- <- <-. right. exists k, c, f. split; [exact EE|]. auto 8.
Qed.

(** The relation between requests and answers, without a budget. *)
Inductive steps (uni : bool) : tr -> option devent -> res (tr * event) -> Prop :=
| steps_err r d e : skip_step uni r d = Err e -> steps uni r d (Err e)
| steps_event r d r' ev : skip_step uni r d = Ok (r', Some ev) -> steps uni r d (Ok (r', ev))
| steps_go r d r' x : skip_step uni r d = Ok (r', None) -> steps uni r' None x -> steps uni r d x.

Lemma steps_det uni r d x : steps uni r d x -> forall y, steps uni r d y -> x = y.
Proof.
  induction 1 as [r d e E|r d r' ev E|r d r' x E S IH]; intros y S'; inversion S'; subst;
  match goal with H : skip_step uni r d = _ |- _ => rewrite E in H end; try congruence.
  injection H as <-. now apply IH.
Qed.

Lemma skip_step_delegate uni r d r' : skip_step uni r d = Ok (r', None) ->
  exists ev, delegate uni (tr_core r) (tr_q r) d = Ok (tr_core r', tr_q r', ev) /\
    (forall c, ev <> Some (signal c)).
Proof.
  unfold skip_step. intros E. apply bind_ok in E. destruct E as ([[s q] e] & Ed & E). rewrite Ed. exists e. cbv zeta in E.
  destruct (tr_skipping r || _).
  - destruct e as [e|].
    + destruct (ev_type e) eqn:Et; try discriminate.
      all: try (destruct (ev_depth e) as [n|]; [|discriminate]; destruct (n <=? tr_skip_depth r); [discriminate|]).
      all: injection E as <-; split; [reflexivity|]; intros c [= ->]; destruct c; discriminate.
    + injection E as <-. split; [reflexivity|]. discriminate.
  - injection E as <- ->. split; [reflexivity|]. discriminate.
Qed.
Lemma skip_step_go uni r d r' : skip_step uni r d = Ok (r', None) ->
  waiting (tr_core r') = false /\
  (waiting (tr_core r) = false -> weight (tr_core r') (tr_q r') < weight (tr_core r) (tr_q r))%nat /\
  (weight (tr_core r') (tr_q r') < 16 * (List.length (tr_q r) + data_len d) + 99)%nat.
Proof.
  intros E. destruct (skip_step_delegate _ _ _ _ E) as (ev & Ed & N).
  destruct (delegate_cases _ _ _ _ _ _ _ Ed) as [H|(k & c & f & _ & Ev & _)]; [exact H|]. now destruct (N c).
Qed.

Lemma run_steps_none uni n : forall r, waiting (tr_core r) = false -> (weight (tr_core r) (tr_q r) < n)%nat ->
  steps uni r None (run n uni r None).
Proof.
  induction n as [|n IH]; intros r A W; [lia|]. cbn [run]. destruct (skip_step uni r None) as [[r' [ev|]]|e] eqn:E.
  - now apply steps_event.
  - destruct (skip_step_go _ _ _ _ E) as (A' & W' & _). eapply steps_go; [exact E|]. apply IH; [exact A'|]. specialize (W' A). lia.
  - now apply steps_err.
Qed.
(** The budget of [run] is enough. *)
Theorem run_steps uni r d : steps uni r d (run (steps_fuel r d) uni r d).
Proof.
  unfold steps_fuel. fold (data_len d). remember (16 * (List.length (tr_q r) + data_len d))%nat as m.
  replace (m + 100)%nat with (S (m + 99)) by lia. cbn [run].
  destruct (skip_step uni r d) as [[r' [ev|]]|e] eqn:E.
  - now apply steps_event.
  - destruct (skip_step_go _ _ _ _ E) as (A' & _ & W'). eapply steps_go; [exact E|]. apply run_steps_none; [exact A'|]. lia.
  - now apply steps_err.
Qed.
Lemma steps_run uni r d x : steps uni r d x -> run (steps_fuel r d) uni r d = x.
Proof. intros S. exact (steps_det _ _ _ _ (run_steps uni r d) _ S). Qed.
Lemma steps_total uni r d : exists x, steps uni r d x.
Proof. eexists. apply run_steps. Qed.
