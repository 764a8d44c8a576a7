(** Model of pddl/parser/typed_list_parser.py.

    The items are names / variables (str) or function skeletons (NumericFunction): the model is
    generic in the item type [A], its [==] and the validation applied to an item.
    [_types_to_items] is not modelled: it is written but never read. *)
From Coq Require Import String List Bool Arith.
From Verif Require Import Py Names.
Import ListNotations.
Open Scope string_scope.
Open Scope list_scope.

(** an element of the token list given to parse_typed_list: an item, the separator "-", or what
    follows a separator (one type, or the list built from "(either ...)").
    Simplification: in lists of names the type is a str like the items; being always at an
    index skipped by the loop, it is never looked at as an item. *)
Inductive titem (A : Type) : Type :=
| IItem (a : A)
| ISep
| ITypes (gs : list string).
Arguments IItem {A} a.
Arguments ISep {A}.
Arguments ITypes {A} gs.

Section TypedList.
  Context {A : Type} (eqb : A -> A -> bool).
  (** typed_list_parser.py:169-172: parse_name for str items, nothing for NumericFunction items *)
  Variable parse_item : A -> res A.

  (** typed_list_parser.py:37-43: _item_to_types and _item_to_types_sequence *)
  Record tindex : Type := mkIndex {
    ti_items : list (A * list string);
    ti_seq : list (A * list string)
  }.

  (** typed_list_parser.py:176-190 _check_item_name_already_present *)
  Definition check_item_name_already_present (ix : tindex) (a : A) : res unit :=
    check (negb (dict_has eqb a (ti_items ix))) ValueError.

  (** typed_list_parser.py:192-204 _check_tags_already_present *)
  Definition check_tags_already_present (ix : tindex) (a : A) (tags : list string) : res unit :=
    let existing := match dict_get eqb a (ti_items ix) with Some gs => gs | None => [] end in
    check (negb (existsb (fun g => memb String.eqb g existing) tags)) ValueError.

  (** typed_list_parser.py:206-214 _check_item_types *)
  Definition check_item_types (ix : tindex) (a : A) (tags : list string) : res unit :=
    match dict_get eqb a (ti_items ix) with
    | Some prev => check (set_eqb String.eqb prev tags) ValueError
    | None => Ok tt
    end.

  (** typed_list_parser.py:216-221 _add_item *)
  Definition add_item_unchecked (ix : tindex) (a : A) (tags : list string) : tindex :=
    let prev := match dict_get eqb a (ti_items ix) with Some gs => gs | None => [] end in
    mkIndex (dict_set eqb a (union String.eqb prev tags) (ti_items ix))
            (ti_seq ix ++ [(a, tags)]).

  (** typed_list_parser.py:45-58 add_item *)
  Definition add_item (allow_duplicates : bool) (ix : tindex) (a : A) (tags : list string)
    : res tindex :=
    (if allow_duplicates then Ok tt
     else check_item_name_already_present ix a ;; check_tags_already_present ix a tags) ;;
    check_item_types ix a tags ;;
    Ok (add_item_unchecked ix a tags).

  (** typed_list_parser.py:149-174 _add_typed_lists; [items] is islice(tokens, start, end) *)
  Fixpoint add_typed_lists (allow_duplicates : bool) (ix : tindex) (items : list (titem A))
           (tags : list string) : res tindex :=
    match items with
    | [] => Ok ix
    | IItem a :: items' =>
        let* a' := parse_item a in
        let* tags' := mapR parse_type tags in
        let* ix' := add_item allow_duplicates ix a' (dedup String.eqb tags') in
        add_typed_lists allow_duplicates ix' items' tags
    | _ :: _ => Err ValueError
    end.

  (** itertools.islice(tokens, s, e) (typed_list_parser.py:164) *)
  Definition slice (s e : nat) (l : list (titem A)) : list (titem A) := firstn (e - s) (skipn s l).

  (** helpers/base.py:103-108 safe_index(tokens, "-", start, len(tokens)) *)
  Fixpoint find_sep (pos : nat) (l : list (titem A)) : option nat :=
    match l with
    | [] => None
    | ISep :: _ => Some pos
    | _ :: l' => find_sep (S pos) l'
    end.
  (** helpers/base.py:103-108 safe_index(tokens, "-", start) *)
  Definition sep_index (start : nat) (tokens : list (titem A)) : option nat :=
    find_sep start (skipn start tokens).

  (** typed_list_parser.py:127-147: the while loop and what follows it.  Each round moves [start] forward, so
      [length tokens] rounds suffice; running out of [fuel] is reported as Diverges *)
  Fixpoint typed_loop (fuel : nat) (allow_duplicates : bool) (tokens : list (titem A))
           (ix : tindex) (start : nat) : res tindex :=
    match fuel with
    | O => Err Diverges
    | S fuel' =>
        match sep_index start tokens with
        | Some sep =>
            match nth_error tokens (sep + 1) with
            | Some (ITypes gs) =>
                let* ix' := add_typed_lists allow_duplicates ix (slice start sep tokens)
                                            (dedup String.eqb gs) in
                typed_loop fuel' allow_duplicates tokens ix' (sep + 2)
            | Some _ => Err TypeError
            | None => Err IndexError
            end
        | None =>
            if Nat.eqb start (length tokens) then Ok ix
            else add_typed_lists allow_duplicates ix (slice start (length tokens) tokens) []
        end
    end.

  (** typed_list_parser.py:74-147 parse_typed_list *)
  Definition parse_typed_list (tokens : list (titem A)) (allow_duplicates : bool) : res tindex :=
    let ix := mkIndex [] [] in
    match sep_index 0 tokens with
    | None => add_typed_lists allow_duplicates ix (slice 0 (length tokens) tokens) []
    | Some _ => typed_loop (S (length tokens)) allow_duplicates tokens ix 0
    end.

  (** typed_list_parser.py:60-68 get_typed_list_of_names *)
  Definition typed_list_of_names (ix : tindex) : res (list (A * option string)) :=
    mapR (fun kv => match snd kv with
                    | [] => Ok (fst kv, None)
                    | [g] => Ok (fst kv, Some g)
                    | _ => Err ValueError
                    end) (ti_items ix).

  (** typed_list_parser.py:70-72 get_typed_list_of_variables *)
  Definition typed_list_of_variables (ix : tindex) : list (A * list string) := ti_seq ix.
End TypedList.
