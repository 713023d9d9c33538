(** Model of symbol tables and catalogs: /repo/amazon/ion/symbols.py. *)
From Coq Require Import String Ascii.
From Verif Require Import Base CoreModel.
Local Open Scope Z_scope.

(** A Python text literal as its code points. (symbols.py:31-39: text literals) *)
Definition txt (s : string) : text := map (fun c => Z.of_N (N_of_ascii c)) (list_ascii_of_string s).

(** symbols.py:31. *)
Definition TEXT_ION := Eval compute in txt "$ion".
(** symbols.py:32. *)
Definition TEXT_ION_1_0 := Eval compute in txt "$ion_1_0".
(** symbols.py:33. *)
Definition TEXT_ION_SYMBOL_TABLE := Eval compute in txt "$ion_symbol_table".
(** symbols.py:34. *)
Definition TEXT_NAME := Eval compute in txt "name".
(** symbols.py:35. *)
Definition TEXT_VERSION := Eval compute in txt "version".
(** symbols.py:36. *)
Definition TEXT_IMPORTS := Eval compute in txt "imports".
(** symbols.py:37. *)
Definition TEXT_SYMBOLS := Eval compute in txt "symbols".
(** symbols.py:38. *)
Definition TEXT_MAX_ID := Eval compute in txt "max_id".
(** symbols.py:39. *)
Definition TEXT_ION_SHARED_SYMBOL_TABLE := Eval compute in txt "$ion_shared_symbol_table".

(** symbols.py:92-94 [_system_symbol_token], [_SYSTEM_SYMBOL_TOKENS]. *)
Definition system_token (t : text) (sid : Z) : token := mktok (Some t) (Some sid) (Some (mkloc TEXT_ION sid)).
(** symbols.py:99-109. *)
Definition system_tokens : list token :=
  [system_token TEXT_ION 1; system_token TEXT_ION_1_0 2; system_token TEXT_ION_SYMBOL_TABLE 3;
   system_token TEXT_NAME 4; system_token TEXT_VERSION 5; system_token TEXT_IMPORTS 6;
   system_token TEXT_SYMBOLS 7; system_token TEXT_MAX_ID 8; system_token TEXT_ION_SHARED_SYMBOL_TABLE 9].

(** symbols.py:112-123: the three table types. *)
Inductive ttype := SystemTable | SharedTable | LocalTable.
(** symbols.py:112-121. *)
Definition is_system (t : ttype) : bool := match t with SystemTable => true | _ => false end.
(** symbols.py:112-122. *)
Definition is_shared (t : ttype) : bool := match t with LocalTable => false | _ => true end.
(** symbols.py:123. *)
Definition is_local (t : ttype) : bool := match t with LocalTable => true | _ => false end.

(** A Python dict keyed by text or ints, as an association list; [dict_get] finds the only entry.
    (symbols.py:181, 497: the dicts of a table and of a catalog) *)
Definition dict (K V : Type) : Type := list (K * V).
(** symbols.py:216, 285. *)
Fixpoint dict_get {K V} (eqb : K -> K -> bool) (d : dict K V) (k : K) : option V :=
  match d with
  | [] => None
  | (k', v) :: d' => if eqb k k' then Some v else dict_get eqb d' k
  end.
(** symbols.py:218, 514-516. *)
Fixpoint dict_set {K V} (eqb : K -> K -> bool) (d : dict K V) (k : K) (v : V) : dict K V :=
  match d with
  | [] => [(k, v)]
  | (k', v') :: d' => if eqb k k' then (k', v) :: d' else (k', v') :: dict_set eqb d' k v
  end.

(** symbols.py:126-370 [SymbolTable]: the attributes. *)
Inductive symtab := mkst {
  st_type : ttype;
  st_name : option text;
  st_version : option Z;
  st_imports : option (list symtab);
  st_sub : bool;
  st_max : Z;
  st_syms : list token;
  st_map : dict text token
}.

(** symbols.py:213-218 [__add]. *)
Definition st_add (st : symtab) (t : token) : symtab :=
  mkst (st_type st) (st_name st) (st_version st) (st_imports st) (st_sub st) (st_max st)
       (st_syms st ++ [t])
       (match tk_text t with
        | None => st_map st
        | Some x => match dict_get zlist_eqb (st_map st) x with
                    | Some _ => st_map st
                    | None => dict_set zlist_eqb (st_map st) x t
                    end
        end).

(** symbols.py:207-211 [__new_sid] is [max_id + 1], stored. *)
Definition set_max (st : symtab) (m : Z) : symtab :=
  mkst (st_type st) (st_name st) (st_version st) (st_imports st) (st_sub st) m (st_syms st) (st_map st).

(** symbols.py:200-205 [__import_location]; the name of a shared table is never None. *)
Definition import_location (st : symtab) (sid : Z) : location :=
  mkloc (match st_name st with Some n => n | None => [] end) sid.

(** symbols.py:220-225 [__add_shared]. *)
Definition add_shared (st : symtab) (t : token) : symtab :=
  let sid := st_max st + 1 in
  st_add (set_max st sid) (mktok (tk_text t) (Some sid) (Some (import_location st sid))).
(** symbols.py:227-232 [__add_import]. *)
Definition add_import (st : symtab) (t : token) : symtab :=
  let sid := st_max st + 1 in
  st_add (set_max st sid) (mktok (tk_text t) (Some sid) (tk_loc t)).
(** symbols.py:234-244 [__add_text]; [text] is None or Unicode by typing. *)
Definition add_text (st : symtab) (x : option text) : symtab * token :=
  let sid := st_max st + 1 in
  let t := mktok x (Some sid) (if is_shared (st_type st) then Some (import_location st sid) else None) in
  (st_add (set_max st sid) t, t).

(** symbols.py:183-190: whether a local table takes a token of an import. *)
Definition takes_import (table : symtab) (t : token) : bool :=
  negb (is_local (st_type table)) ||
  match tk_loc t with None => true | Some l => negb (zlist_eqb (loc_name l) TEXT_ION) end.

(** symbols.py:155-198 [SymbolTable.__init__]. *)
Definition st_new (ty : ttype) (symbols : list (option text)) (name : option text) (version : option Z)
  (imports : option (list symtab)) (sub : bool) : res symtab :=
  if is_system ty && (match imports with None => false | _ => true end) then Err ValueError
  else if is_shared ty && (match name, version with Some _, Some v => v <=? 0 | _, _ => true end) then Err ValueError
  else if is_local ty && (match name, version with None, None => false | _, _ => true end) then Err ValueError
  else if is_system ty && negb (opt_eqb zlist_eqb name (Some TEXT_ION)) then Err ValueError
  else
    let st := mkst ty name version imports sub 0 [] [] in
    let st := if is_local ty || is_system ty
              then set_max (fold_left st_add system_tokens st) (zlen system_tokens) else st in
    let st := fold_left (fun st table =>
                fold_left (fun st t => if is_shared ty then add_shared st t
                                       else if takes_import table t then add_import st t else st)
                          (st_syms table) st)
              (match imports with Some l => l | None => [] end) st in
    Ok (if is_system ty then st else fold_left (fun st x => fst (add_text st x)) symbols st).

(** symbols.py:268-297 [get]: by text (the default is ignored) and by SID. *)
Definition get_text (st : symtab) (key : text) (default : option token) : option token :=
  dict_get zlist_eqb (st_map st) key.
(** symbols.py:268-297. *)
Definition get_sid (st : symtab) (key : Z) (default : option token) : option token :=
  if key =? 0 then Some symbol_zero
  else if (key - 1 <? 0) || (zlen (st_syms st) <? key) then default
  else nth_error (st_syms st) (Z.to_nat (key - 1)).

(** symbols.py:299-317 [__getitem__]. *)
Definition item_text (st : symtab) (key : text) : res token :=
  match get_text st key None with Some t => Ok t | None => Err KeyError end.
(** symbols.py:299-317. *)
Definition item_sid (st : symtab) (key : Z) : res token :=
  match get_sid st key None with Some t => Ok t | None => Err KeyError end.

(** symbols.py:246-266 [intern]. *)
Definition intern (st : symtab) (x : text) : res (token * symtab) :=
  if is_shared (st_type st) then Err TypeError
  else match get_text st x None with
       | Some t => Ok (t, st)
       | None => let '(st', t) := add_text st (Some x) in Ok (t, st')
       end.

(** symbols.py:331-367 [__eq__] (on two tables; [imports] and [max_id] are not compared). *)
Definition ttype_eqb (a b : ttype) : bool :=
  match a, b with SystemTable, SystemTable | SharedTable, SharedTable | LocalTable, LocalTable => true | _, _ => false end.
(** symbols.py:357-365. *)
Fixpoint tokens_eqb (a b : list token) : bool :=
  match a, b with
  | [], [] => true
  | x :: a', y :: b' => token_eqb x y && tokens_eqb a' b'
  | _, _ => false
  end.
(** symbols.py:331-367. *)
Definition st_eqb (a b : symtab) : bool :=
  ttype_eqb (st_type a) (st_type b) && opt_eqb zlist_eqb (st_name a) (st_name b) &&
  opt_eqb Z.eqb (st_version a) (st_version b) && Bool.eqb (st_sub a) (st_sub b) && tokens_eqb (st_syms a) (st_syms b).

(** symbols.py:372-377 [SYSTEM_SYMBOL_TABLE]. *)
Definition system_symbol_table : res symtab := st_new SystemTable [] (Some TEXT_ION) (Some 1) None false.
(** symbols.py:380-394. *)
Definition local_symbol_table (imports : option (list symtab)) (symbols : list (option text)) : res symtab :=
  st_new LocalTable symbols None None imports false.
(** symbols.py:397-415. *)
Definition shared_symbol_table (name : text) (version : Z) (symbols : list (option text)) (imports : option (list symtab))
  : res symtab := st_new SharedTable symbols (Some name) (Some version) imports false.
(** symbols.py:418-443. *)
Definition placeholder_symbol_table (name : option text) (version max_id : Z) : res symtab :=
  if version <=? 0 then Err ValueError
  else if max_id <? 0 then Err ValueError
  else st_new SharedTable (repeat None (Z.to_nat max_id)) name (Some version) None true.
(** symbols.py:446-484. *)
Definition substitute_symbol_table (table : symtab) (version max_id : Z) : res symtab :=
  if negb (is_shared (st_type table)) then Err ValueError
  else if version <=? 0 then Err ValueError
  else if max_id <? 0 then Err ValueError
  else
    let symbols := if max_id <=? st_max table then map tk_text (ztake max_id (st_syms table))
                   else map tk_text (st_syms table) ++ repeat None (Z.to_nat (max_id - st_max table)) in
    st_new SharedTable symbols (st_name table) (Some version) None true.

(** symbols.py:487-497: the catalog, name to version to table, and [register].  A shared table has
    a name and a version by construction. *)
Definition catalog : Type := dict text (dict Z symtab).
(** symbols.py:496-497. *)
Definition catalog_new : catalog := [].
(** symbols.py:499-516. *)
Definition register (c : catalog) (table : symtab) : res catalog :=
  if is_system (st_type table) then Err ValueError
  else if negb (is_shared (st_type table)) then Err ValueError
  else if st_sub table then Err ValueError
  else
    let name := match st_name table with Some n => n | None => [] end in
    let version := match st_version table with Some v => v | None => 0 end in
    let versions := match dict_get zlist_eqb c name with Some vs => vs | None => [] end in
    Ok (dict_set zlist_eqb c name (dict_set Z.eqb versions version table)).

(** symbols.py:544-547: [keys.sort(); versions[keys[-1]]], the entry of the greatest key. *)
Definition last_version (vs : dict Z symtab) : option symtab :=
  match vs with
  | [] => None
  | _ => dict_get Z.eqb vs (fold_right (fun p m => Z.max (fst p) m) (match vs with (k, _) :: _ => k | [] => 0 end) vs)
  end.

(** symbols.py:518-564 [resolve]. *)
Definition resolve (c : catalog) (name : text) (version : Z) (max_id : option Z) : res symtab :=
  if version <=? 0 then Err ValueError
  else if (match max_id with Some m => m <? 0 | None => false end) then Err ValueError
  else match dict_get zlist_eqb c name with
  | None => match max_id with
            | None => Err CannotSubstituteTable
            | Some m => placeholder_symbol_table (Some name) version m
            end
  | Some versions =>
    let table := match dict_get Z.eqb versions version with
                 | Some t => Some t
                 | None => last_version versions
                 end in
    match table with
    | None => Err IndexError (* keys[-1] of an empty list; not reachable *)
    | Some table =>
      if opt_eqb Z.eqb (st_version table) (Some version) &&
         (match max_id with None => true | Some m => st_max table =? m end)
      then Ok table
      else match max_id with
           | None => Err CannotSubstituteTable
           | Some m => substitute_symbol_table table version m
           end
    end
  end.
