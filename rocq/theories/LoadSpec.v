(** What a stream of Ion values is to a Python program: the Ion values a tree of events stands for.
    Nothing here knows of [load], of readers or of Python objects. *)
From Verif Require Import Base CoreModel BinWriterModel SymbolsModel ManagedModel Cursor ManagedSpec SimpleionModel SimpleionSpec.
Local Open Scope Z_scope.

(** The text of a symbol (None: it has none) under a table: its own, or that of its identifier. *)
Definition symbol_text (table : symtab) (t : token) (x : option text) : Prop :=
  match tk_text t with
  | Some s => x = Some s
  | None => exists sid r, tk_sid t = Some sid /\ get_sid table sid None = Some r /\ x = tk_text r
  end.
(** Fields by name: names in the order in which they first appear, under each its values in order. *)
Definition same_name (a b : option text) : bool := opt_eqb zlist_eqb a b.
Fixpoint gathered_from {V : Type} (n : nat) (l : list (option text * V)) : list (option text * V) :=
  match n, l with
  | S n', (k, v) :: r =>
    (k, v) :: filter (fun p => same_name k (fst p)) r ++ gathered_from n' (filter (fun p => negb (same_name k (fst p))) r)
  | _, _ => []
  end.
Definition gathered {V : Type} (l : list (option text * V)) : list (option text * V) := gathered_from (length l) l.

Definition annotated (u : mevent) (an : list (option text)) : Prop := Forall2 (symbol_text (me_table u)) (ev_annot (me_ev u)) an.
Definition called (u : mevent) (k : option text) : Prop := exists f, ev_field (me_ev u) = Some f /\ symbol_text (me_table u) f k.
Definition valued (u : mevent) (v : option scalar) : Prop := ev_force (ev_value (me_ev u)) = Ok v.
Definition typed (u : mevent) (t : iontype) : Prop := ev_ion_type (me_ev u) = Some t.
Definition first_event {A} (t : etree A) : A := match t with Leaf e => e | Branch s _ _ => s end.

Inductive means : etree mevent -> ionval -> Prop :=
| means_null u t an : typed u t -> annotated u an -> valued u None -> means (Leaf u) (INull t an)
| means_symbol u an k x : typed u TSymbol -> annotated u an -> valued u (Some (VSymbol k)) -> symbol_text (me_table u) k x -> means (Leaf u) (ISymbol an x)
| means_scalar u t an s : typed u t -> t <> TSymbol -> annotated u an -> valued u (Some s) -> class_fits t s -> means (Leaf u) (IScalar t an s)
| means_sequence u ks f t an l : typed u t -> t = TList \/ t = TSexp -> annotated u an -> Forall2 means ks l ->
    means (Branch u ks f) (ISeq (match t with TSexp => true | _ => false end) an l)
| means_struct u ks f an l : typed u TStruct -> annotated u an ->
    Forall2 (fun k p => called (first_event k) (fst p) /\ means k (snd p)) ks l ->
    means (Branch u ks f) (IStruct an (gathered l)).
