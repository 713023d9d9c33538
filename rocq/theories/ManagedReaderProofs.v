(** The managed reader gives the user's view of the stream. *)
From Verif Require Import Base BaseFacts CoreModel BufferModel BinReaderModel BinReaderNest BinReaderSession
  SymbolsModel ManagedModel BinFormat BinFormatFacts Cursor ManagedSpec ManagedReaderFacts.
Local Open Scope Z_scope.

Section OVER.
Variable cat : catalog.

Definition tagged (table : symtab) (e : event) : mevent := mkme e table.

(** What the user sees of a raw cursor. *)
Inductive views : symtab -> Z -> cursor event -> cursor mevent -> stop -> Prop :=
| views_top table ts us fin : user_view cat table ts = (us, fin) -> Forall (shaped 0) ts -> views table 0 (mkcur ts []) (mkcur us []) fin
| views_in table d ks f r o r' o' fin : views table d (mkcur r o) (mkcur r' o') fin -> 0 <= d -> Forall (shaped (d + 1)) ks ->
    ev_type f = EContainerEnd -> ev_depth f = Some d -> ev_ion_type f <> Some TSymbol ->
    views table (d + 1) (mkcur ks ((f, r) :: o)) (mkcur (map (tree_map (tagged table)) ks) ((tagged table f, r') :: o')) fin.

(** Events left in a cursor. *)
Definition cursor_weight (c : cursor event) : nat :=
  (weights (c_here c) + fold_right (fun p n => S (weights (snd p)) + n)%nat 0%nat (c_open c))%nat.

Definition quiet (table : symtab) : mstate := mkms table None.

Lemma deep_step table e d : ev_depth e = Some d -> d <> 0 -> mr_step cat (quiet table) e = Ok (quiet table, None).
Proof. intros D N. unfold mr_step. cbn [ms_proc quiet]. rewrite D. destruct d; [congruence|reflexivity|reflexivity]. Qed.
Lemma end_step table e d : ev_depth e = Some d -> ev_type e = EContainerEnd -> ev_ion_type e <> Some TSymbol ->
  mr_step cat (quiet table) e = Ok (quiet table, None).
Proof.
  intros D T N. unfold mr_step. cbn [ms_proc quiet]. rewrite D. destruct d; [|reflexivity|reflexivity]. rewrite T.
  destruct (ev_ion_type e) as [ty|]; [|reflexivity]. destruct ty; try reflexivity. congruence.
Qed.

(** A top-level value that is not a system value. *)
Lemma user_step table t : shaped 0 t -> system_value cat table t = Ok None -> mr_step cat (quiet table) (head_of t) = Ok (quiet table, None).
Proof.
  intros SH SV. unfold mr_step. cbn [ms_proc ms_table quiet]. destruct t as [e|s ks f]; cbn [head_of system_value] in *.
  - destruct SH as (D & [T|[T _]]); rewrite D, T in *.
    + unfold has_type, head_of in SV. destruct (ev_ion_type e) as [ty|]; [|reflexivity]. destruct ty; try reflexivity.
      destruct (ev_annot e); [|reflexivity]. cbn [opt_eqb iontype_eqb iontype_num Z.eqb Pos.eqb] in SV.
      destruct (symbol_value e) as [[tok|]|x]; cbn [bind] in *; try discriminate; try reflexivity.
      destruct (resolve_token table tok) as [rt|x]; cbn [bind] in *; try discriminate.
      destruct (is_text (tk_text rt) TEXT_ION_1_0); [discriminate|reflexivity].
    + destruct (is_version_1_0 e); discriminate.
  - destruct SH as (T & D & TF & DF & IF & CT & KK). rewrite D, T. unfold has_type, head_of in SV.
    destruct (ev_ion_type s) as [ty|]; [|reflexivity]. destruct (ev_annot s) as [|a an].
    + destruct ty; try reflexivity. exfalso. destruct CT as [E|[E|E]]; discriminate E.
    + destruct ty; try reflexivity. cbn [opt_eqb iontype_eqb iontype_num Z.eqb Pos.eqb] in SV.
      destruct (resolve_token table a) as [rt|x]; cbn [bind] in *; [|discriminate].
      destruct (is_text (tk_text rt) TEXT_ION_SYMBOL_TABLE); [|reflexivity].
      destruct (declared cat table [] None ks); discriminate.
Qed.

(** A system value, or an error. *)
Lemma system_part table t r : shaped 0 t -> 
  match system_value cat table t with
  | Ok (Some table') => part cat (quiet table) (mkcur (t :: r) []) (weight t) (Ok (quiet table')) (mkcur r [])
  | Err e => part cat (quiet table) (mkcur (t :: r) []) (weight t) (Err e) (mkcur r [])
  | Ok None => True
  end.
Proof.
  intros SH. destruct t as [e|s ks f]; cbn [system_value].
  - destruct SH as (D & [T|[T _]]); rewrite T.
    + destruct (ev_annot e) eqn:AN; [|exact Logic.I].
      unfold has_type, head_of. destruct (opt_eqb iontype_eqb (ev_ion_type e) (Some TSymbol)) eqn:HT; [|exact Logic.I].
      assert (IT : ev_ion_type e = Some TSymbol) by (destruct (ev_ion_type e) as [ty|]; [destruct ty; try discriminate HT; reflexivity|discriminate]).
      assert (ST : mr_step cat (quiet table) e =
        (let* v := symbol_value e in
         match v with
         | None => Ok (quiet table, None)
         | Some t => let* r := resolve_token table t in
                     if is_text (tk_text r) TEXT_ION_1_0 then Ok (quiet table, Some DNext) else Ok (quiet table, None)
         end)) by (unfold mr_step; cbn [ms_proc ms_table quiet]; rewrite D, T, IT, AN; reflexivity).
      destruct (symbol_value e) as [[tok|]|x]; cbn [bind] in *; try exact Logic.I.
      * destruct (resolve_token table tok) as [rt|x]; cbn [bind] in *.
        -- destruct (is_text (tk_text rt) TEXT_ION_1_0); [|exact Logic.I].
           eapply part_step; [reflexivity|rewrite T; reflexivity|exact ST|apply part_done].
        -- eapply part_fail; [reflexivity|rewrite T; reflexivity|exact ST].
      * eapply part_fail; [reflexivity|rewrite T; reflexivity|exact ST].
    + assert (ST : mr_step cat (quiet table) e = if is_version_1_0 e then Ok (quiet system_table, Some DNext) else Err IonException)
        by (unfold mr_step; cbn [ms_proc ms_table quiet]; rewrite D, T; reflexivity).
      destruct (is_version_1_0 e).
      * eapply part_step; [reflexivity|rewrite T; reflexivity|exact ST|apply part_done].
      * eapply part_fail; [reflexivity|rewrite T; reflexivity|exact ST].
  - destruct SH as (T & D & TF & DF & IF & CT & KK). apply shaped_kids in KK. destruct (ev_annot s) as [|a an] eqn:AN; [exact Logic.I|].
    unfold has_type, head_of. destruct (opt_eqb iontype_eqb (ev_ion_type s) (Some TStruct)) eqn:HT; [|exact Logic.I].
    assert (IT : ev_ion_type s = Some TStruct) by (destruct CT as [E|[E|E]]; rewrite E in HT; try discriminate HT; exact E).
    assert (ST : mr_step cat (quiet table) s =
      (let* r := resolve_token table a in
        if is_text (tk_text r) TEXT_ION_SYMBOL_TABLE then Ok (mkms table (Some lproc_new), Some DNext) else Ok (quiet table, None)))
      by (unfold mr_step; cbn [ms_proc ms_table quiet]; rewrite D, T, IT, AN; reflexivity).
    destruct (resolve_token table a) as [rt|x]; cbn [bind] in *.
    + destruct (is_text (tk_text rt) TEXT_ION_SYMBOL_TABLE); [|exact Logic.I].
      pose proof (table_part cat ks 1 table [] None f r [] KK ltac:(lia) TF) as P.
      rewrite weight_branch. cbn [Nat.add].
      destruct (declared cat table [] None ks) as [t'|x]; cbn [bind] in *; (eapply part_step; [reflexivity|rewrite T; reflexivity|exact ST|exact P]).
    + eapply part_fail; [reflexivity|rewrite T; reflexivity|exact ST].
Qed.

Lemma signal_of_leaf e : ev_type e = EScalar \/ (ev_type e = EVersionMarker /\ 0 = 0) -> is_stream_signal (ev_type e) = false.
Proof. intros [-> | [-> _]]; reflexivity. Qed.

(** The user's NEXT at the top level. *)
Lemma top_next ts : forall table us fin, user_view cat table ts = (us, fin) -> Forall (shaped 0) ts ->
  match cursor_next (mkcur us []) with
  | Some (u, uc') => exists table' d' rc' n, (n <= weights ts)%nat /\ runs cat (quiet table) (mkcur ts []) DNext (Yield u (quiet table') rc') n /\
      views table' d' rc' uc' fin /\ (cursor_weight rc' <= weights ts)%nat
  | None => match fin with
            | SEnd => exists n, (n <= S (weights ts))%nat /\ runs cat (quiet table) (mkcur ts []) DNext Finish n
            | SExc e => exists n, (n <= S (weights ts))%nat /\ runs cat (quiet table) (mkcur ts []) DNext (Fail e) n
            | SMore => False
            end
  end.
Proof.
  induction ts as [|t ts IH]; intros table us fin UV SH.
  - cbn [user_view] in UV. injection UV as <- <-. cbn [cursor_next c_here c_open]. exists 1%nat. split; [lia|]. apply runs_end. reflexivity.
  - inversion SH as [|? ? S0 SS]; subst. cbn [user_view] in UV. rewrite weights_cons.
    pose proof (system_part table t ts S0) as P. destruct (system_value cat table t) as [[table'|]|e] eqn:SV.
    + destruct P as (k & L & G). specialize (IH table' us fin UV SS). destruct (cursor_next (mkcur us [])) as [[u uc']|].
      * destruct IH as (table2 & d' & rc' & n & L2 & R & V & W). exists table2, d', rc', (k + n)%nat. split; [lia|].
        split; [eapply goes_runs; eassumption|]. split; [exact V|lia].
      * destruct fin as [| |e]; [destruct IH| |]; destruct IH as (n & L2 & R); exists (k + n)%nat; (split; [lia|eapply goes_runs; eassumption]).
    + pose proof (user_step table t S0 SV) as ST.
      destruct (user_view cat table ts) as [us0 fin0] eqn:UV0. injection UV as <- <-.
      destruct t as [e|s ks f]; cbn [tree_map]; unfold cursor_next; cbn [c_here c_open].
      * destruct S0 as (D & T). exists table, 0, (mkcur ts []), 1%nat. cbn [weight]. split; [lia|]. split.
        -- change (mkme e table) with (mkme e (ms_table (quiet table))). eapply runs_yield; [reflexivity|apply signal_of_leaf; exact T|exact ST].
        -- split; [constructor; assumption|]. unfold cursor_weight. cbn [c_here c_open fold_right]. lia.
      * destruct S0 as (T & D & TF & DF & IF & CT & KK). apply shaped_kids in KK.
        exists table, (0 + 1), (mkcur ks [(f, ts)]), 1%nat. cbn [weight]. split; [lia|]. split.
        -- change (mkme s table) with (mkme s (ms_table (quiet table))). eapply runs_yield; [reflexivity|rewrite T; reflexivity|exact ST].
        -- split.
           ++ apply (views_in table 0 ks f ts [] us0 []); [constructor; assumption|lia|exact KK|exact TF|exact DF|].
              rewrite IF. destruct CT as [E|[E|E]]; rewrite E; discriminate.
           ++ unfold cursor_weight. cbn [c_here c_open fold_right snd]. rewrite Nat.add_0_r. fold (weights ks). lia.
    + destruct P as (k & L & G). injection UV as <- <-. cbn [cursor_next c_here c_open]. exists k. split; [lia|exact G].
Qed.

Lemma tagged_quiet table e : mkme e (ms_table (quiet table)) = tagged table e. Proof. reflexivity. Qed.

(** Any legal request of the user. *)
Lemma user_request table d rc uc fin q : views table d rc uc fin -> q = DNext \/ q = DSkip ->
  match (match q with DNext => cursor_next uc | _ => cursor_skip uc end) with
  | Some (u, uc') => exists table' d' rc' n, (n <= S (cursor_weight rc))%nat /\ runs cat (quiet table) rc q (Yield u (quiet table') rc') n /\
      views table' d' rc' uc' fin /\ (cursor_weight rc' <= cursor_weight rc)%nat
  | None => q = DNext ->
            match fin with
            | SEnd => exists n, (n <= S (cursor_weight rc))%nat /\ runs cat (quiet table) rc q Finish n
            | SExc e => exists n, (n <= S (cursor_weight rc))%nat /\ runs cat (quiet table) rc q (Fail e) n
            | SMore => False
            end
  end.
Proof.
  intros V Q. destruct V as [table ts us fin UV SH|table d ks f r o r' o' fin V D KK TF DF IF].
  - assert (EW : cursor_weight (mkcur ts []) = weights ts) by (unfold cursor_weight; cbn [c_here c_open fold_right]; lia). rewrite EW.
    destruct Q as [-> | ->].
    + pose proof (top_next ts table us fin UV SH) as P. destruct (cursor_next (mkcur us [])) as [[u uc']|].
      * destruct P as (table2 & d' & rc' & n & L2 & R & V & W). exists table2, d', rc', n. split; [lia|auto].
      * intros _. exact P.
    + cbn [cursor_skip c_open]. discriminate.
  - assert (FIN : forall req, request (mkcur ks ((f, r) :: o)) req = Some (f, mkcur r o) ->
       runs cat (quiet table) (mkcur ks ((f, r) :: o)) req (Yield (tagged table f) (quiet table) (mkcur r o)) 1).
    { intros req RQ. rewrite <- (tagged_quiet table f). eapply runs_yield; [exact RQ|rewrite TF; reflexivity|eapply end_step; eassumption]. }
    assert (W : (cursor_weight (mkcur r o) <= cursor_weight (mkcur ks ((f, r) :: o)))%nat)
      by (unfold cursor_weight; cbn [c_here c_open fold_right snd]; lia).
    destruct Q as [-> | ->].
    + destruct ks as [|[e|s kk fk] ks]; unfold cursor_next; cbn [map tree_map c_here c_open].
      * exists table, d, (mkcur r o), 1%nat. split; [lia|]. split; [apply FIN; reflexivity|]. split; [exact V|exact W].
      * inversion KK as [|? ? S0 KS]; subst. destruct S0 as (DE & T). destruct T as [T|[_ T]]; [|lia].
        exists table, (d + 1), (mkcur ks ((f, r) :: o)), 1%nat. split; [lia|]. split.
        -- rewrite <- (tagged_quiet table e). eapply runs_yield; [reflexivity|rewrite T; reflexivity|eapply deep_step; [exact DE|lia]].
        -- split; [constructor; assumption|]. unfold cursor_weight. cbn [c_here c_open]. rewrite weights_cons. lia.
      * inversion KK as [|? ? S0 KS]; subst. destruct S0 as (T & DS & TFk & DFk & IFk & CT & KKk). apply shaped_kids in KKk.
        exists table, (d + 1 + 1), (mkcur kk ((fk, ks) :: (f, r) :: o)), 1%nat. split; [lia|]. split.
        -- rewrite <- (tagged_quiet table s). eapply runs_yield; [reflexivity|rewrite T; reflexivity|eapply deep_step; [exact DS|lia]].
        -- split.
           ++ constructor; try assumption; [constructor; assumption|lia|]. rewrite IFk. destruct CT as [E|[E|E]]; rewrite E; discriminate.
           ++ unfold cursor_weight. cbn [c_here c_open fold_right snd]. rewrite weights_cons, weight_branch. lia.
    + cbn [cursor_skip c_open]. exists table, d, (mkcur r o), 1%nat. split; [lia|]. split; [apply FIN; reflexivity|]. split; [exact V|exact W].
Qed.

Lemma session_views reqs : forall table d rc uc fin r chunks st fuel, views table d rc uc fin -> serves r chunks rc -> reader_nest r st ->
  (cursor_weight rc < fuel)%nat -> legal uc reqs = true ->
  msession fuel cat (quiet table, r) chunks reqs = cursor_session fin uc reqs.
Proof.
  induction reqs as [|q qs IH]; intros table d rc uc fin r chunks st fuel V SV RN LF LG; [reflexivity|].
  cbn [msession cursor_session]. change (mblocking_next fuel cat (quiet table, r) chunks q) with (mb cat fuel fuel (quiet table, r) q chunks).
  destruct q as [| |dd].
  - pose proof (user_request table d rc uc fin DNext V (or_introl eq_refl)) as U. cbn [legal] in LG.
    destruct (cursor_next uc) as [[u uc']|].
    + destruct U as (table' & d' & rc' & n & L & R & V' & W).
      destruct (runs_gives cat _ _ _ _ _ R r chunks st fuel fuel SV RN ltac:(lia) ltac:(lia)) as (r' & cs & st' & -> & SV' & RN').
      assert (NE : ev_type (me_ev u) <> EStreamEnd).
      { inversion R; subst; [|]. 
        - intros E. cbn [me_ev] in E. rewrite E in *. discriminate.
        - clear - R. remember (Yield u (quiet table') rc') as o. induction R; try discriminate; auto.
          injection Heqo as <- _ _. intros E. cbn [me_ev] in E. rewrite E in *. discriminate. }
      rewrite (IH table' d' rc' uc' fin r' cs st' fuel V' SV' RN' ltac:(lia) LG).
      destruct (cursor_session fin uc' qs). destruct (ev_type (me_ev u)); try reflexivity. congruence.
    + specialize (U eq_refl). destruct fin as [| |e]; [destruct U| |]; destruct U as (n & L & R).
      * destruct (runs_gives cat _ _ _ _ _ R r chunks st fuel fuel SV RN ltac:(lia) ltac:(lia)) as (t & mr' & cs & ->). reflexivity.
      * destruct (runs_gives cat _ _ _ _ _ R r chunks st fuel fuel SV RN ltac:(lia) ltac:(lia)) as (mr' & cs & ->). reflexivity.
  - pose proof (user_request table d rc uc fin DSkip V (or_intror eq_refl)) as U. cbn [legal] in LG.
    destruct (cursor_skip uc) as [[u uc']|]; [|discriminate].
    destruct U as (table' & d' & rc' & n & L & R & V' & W).
    destruct (runs_gives cat _ _ _ _ _ R r chunks st fuel fuel SV RN ltac:(lia) ltac:(lia)) as (r' & cs & st' & -> & SV' & RN').
    assert (NE : ev_type (me_ev u) <> EStreamEnd).
    { clear - R. remember (Yield u (quiet table') rc') as o. induction R; try discriminate; auto.
      injection Heqo as <- _ _. intros E. cbn [me_ev] in E. rewrite E in *. discriminate. }
    rewrite (IH table' d' rc' uc' fin r' cs st' fuel V' SV' RN' ltac:(lia) LG).
    destruct (cursor_session fin uc' qs). destruct (ev_type (me_ev u)); try reflexivity. congruence.
  - discriminate.
Qed.

(** The trees of the binary format are shaped. *)
Lemma trees_shaped n : forall p d, node_ok p n -> (d = 0 <-> p = Top) -> 0 <= d -> Forall (shaped d) (trees d n).
Proof.
  induction n as [f bs|f w t v bs|f w t hd kids IH| ] using node_induction; intros p d OK DP D; cbn [trees].
  - constructor.
  - constructor; [|constructor]. cbn [shaped ev_depth ev_type]. auto.
  - constructor; [|constructor]. cbn [node_ok] in OK. destruct OK as (_ & _ & CC & KO). apply fold_and_Forall in KO.
    cbn [shaped ev_depth ev_type ev_ion_type]. do 5 (split; [reflexivity|]). split.
    + destruct (container_types _ _ _ CC) as [-> | [-> | ->]]; auto.
    + apply shaped_kids. assert (IN : inside t <> Top) by (destruct t; discriminate).
      clear - IH KO D IN. induction IH as [|k ks Hk Hks IH']; [constructor|]. inversion KO; subst. cbn [flat_map]. apply Forall_app. split; [|auto].
      apply (Hk (inside t)); [assumption|split; [lia|congruence]|lia].
  - constructor; [|constructor]. cbn [node_ok] in OK. destruct DP as [_ DP]. rewrite (DP OK). cbn [shaped version_marker_event ev_depth ev_type]. auto.
Qed.
Lemma stream_shaped ns : stream_ok ns -> Forall (shaped 0) (flat_map (trees 0) ns).
Proof.
  intros H. induction H as [|n ns Hn Hns IH]; [constructor|]. cbn [flat_map]. apply Forall_app. split; [|exact IH].
  apply (trees_shaped n Top); [exact Hn|split; auto|lia].
Qed.

(** Reading a whole stream. *)
Theorem managed_reads ns chunks reqs fuel : stream_ok ns -> chunks_ok chunks -> concat chunks = stream ns ->
  let '(us, fin) := user_view cat system_table (flat_map (trees 0) ns) in
  (S (S (length (flat_map (events 0) ns))) < fuel)%nat -> legal (mkcur us []) reqs = true ->
  msession fuel cat mreader_new chunks reqs = cursor_session fin (mkcur us []) reqs.
Proof.
  intros OK C E. destruct (user_view cat system_table (flat_map (trees 0) ns)) as [us fin] eqn:UV. intros LF LG.
  assert (WT : weights (flat_map (trees 0) ns) = length (flat_map (events 0) ns)).
  { assert (WN : forall t, weight t = length (flatten t)).
    { intros t. induction t as [e|s ks f IH] using tree_induction; [reflexivity|]. cbn [weight flatten length]. rewrite app_length. cbn [length].
      assert (fold_right (fun k n => (weight k + n)%nat) 0%nat ks = length (flat_map flatten ks)); [|lia].
      induction IH as [|k ks' Hk Hks IH']; [reflexivity|]. cbn [fold_right flat_map]. rewrite app_length, Hk, IH'. reflexivity. }
    assert (WS : forall ts, weights ts = length (flat_map flatten ts)).
    { induction ts as [|t ts IH]; [reflexivity|]. rewrite weights_cons. cbn [flat_map]. rewrite app_length, WN, IH. reflexivity. }
    rewrite WS. f_equal. clear. induction ns as [|n ns IH]; [reflexivity|]. cbn [flat_map]. rewrite flat_map_app, trees_events, IH. reflexivity. }
  assert (V : views system_table 0 (stream_cursor ns) (mkcur us []) fin).
  { unfold stream_cursor. constructor.
    - cbn [user_view system_value ev_type version_marker_event]. exact UV.
    - constructor; [cbn [shaped version_marker_event ev_depth ev_type]; auto|]. apply stream_shaped. exact OK. }
  apply (session_views reqs system_table 0 (stream_cursor ns) (mkcur us []) fin reader_new chunks [] fuel V); auto.
  - apply reader_serves; assumption.
  - apply reader_new_nest.
  - unfold cursor_weight, stream_cursor. cbn [c_here c_open fold_right]. rewrite weights_cons, WT. cbn [weight]. lia.
Qed.
End OVER.
