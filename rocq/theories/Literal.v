(** * Literal: literal/literal.go, LiteralHash.Get (expression.go:1296-1316) *)
From Verif Require Import Base Float Ast.

(** The interface{} values ToLiteral returns.  A Go map is an association
    list without duplicate keys (its order is not observable). *)
Inductive lv : Set :=
| LvNil | LvBool (b : bool) | LvInt (z : Z) | LvFloat (f : f64) | LvStr (s : str)
| LvDefault | LvList (l : list lv) | LvMap (m : list (lv * lv)).

(** Go's == on float64 (no NaN can occur): the two zeros are equal *)
Definition f64_eqb (a b : f64) : bool :=
  match a, b with
  | Fin n1 m1 e1, Fin n2 m2 e2 =>
    let e := Z.min e1 e2 in
    ((if n1 then - m1 else m1) * 2 ^ (e1 - e) =? (if n2 then - m2 else m2) * 2 ^ (e2 - e))
  | Inf n1, Inf n2 => Bool.eqb n1 n2
  | _, _ => false
  end.
(** slices and maps cannot be map keys *)
Definition hashable (v : lv) : bool :=
  match v with LvList _ | LvMap _ => false | _ => true end.
(** == on interface{} values that are hashable *)
Definition lv_eqb (a b : lv) : bool :=
  match a, b with
  | LvNil, LvNil | LvDefault, LvDefault => true
  | LvBool x, LvBool y => Bool.eqb x y
  | LvInt x, LvInt y => x =? y
  | LvFloat x, LvFloat y => f64_eqb x y
  | LvStr x, LvStr y => str_eqb x y
  | _, _ => false
  end.
(** m[k] = v *)
Fixpoint map_set (m : list (lv * lv)) (k v : lv) : list (lv * lv) :=
  match m with
  | [] => [(k, v)]
  | (k', v') :: m' => if lv_eqb k k' then (k', v) :: m' else (k', v') :: map_set m' k v
  end.

Inductive lres : Set := LOk (v : lv) | LNot | LPanic.

(** LiteralValue.Value() (expression.go:1238-1727) *)
Definition literal_value (e : expr) : option lv :=
  match e with
  | EBool _ b => Some (LvBool b)
  | EDefault _ => Some LvDefault
  | EFloat _ f => Some (LvFloat f)
  | EInt _ _ z => Some (LvInt z)
  | EString _ s | EQName _ s | EQRef _ s | ERegexp _ s | ERenderString _ s | EReserved _ s _ =>
    Some (LvStr s)
  | EUndef _ => Some LvNil
  | _ => None
  end.

(** The elements of a list, evaluated in order (literal.go:32-38) *)
Fixpoint lit_list (l : list lres) : list lv + lres :=
  match l with
  | [] => inl []
  | LOk v :: l' => match lit_list l' with inl r => inl (v :: r) | inr x => inr x end
  | x :: _ => inr x
  end.
(** The entries of a hash, evaluated in order (literal.go:39-46); [inr tt] is
    a failed type assertion *)
Fixpoint lit_entries (m : list (lv * lv)) (l : list (option (lres * lres))) : lres :=
  match l with
  | [] => LOk (LvMap m)
  | None :: _ => LPanic
  | Some (LOk k, LOk v) :: l' => if hashable k then lit_entries (map_set m k v) l' else LPanic
  | Some (LOk _, x) :: _ => x
  | Some (x, _) :: _ => x
  end.

(** toLiteral (literal.go:28-58) *)
Fixpoint toLiteral (e : expr) : lres :=
  match e with
  | EProgram _ b _ => toLiteral b
  | EList _ es =>
    match lit_list (map toLiteral es) with inl l => LOk (LvList l) | inr x => x end
  | EHash _ es =>
    lit_entries []
      (map (fun x => match x with
                     | EKeyed _ k v => Some (toLiteral k, toLiteral v)
                     | _ => None
                     end) es)
  | EConcat _ [EString _ s] => LOk (LvStr s)
  | EConcat _ _ => LNot
  | EHeredoc _ _ t => toLiteral t
  | _ => match literal_value e with Some v => LOk v | None => LNot end
  end.

(** LiteralHash.Get (expression.go:1296-1316): [inr tt] is the nil
    dereference for an entry that is no *KeyedEntry *)
Definition key_name (k : expr) : option str :=
  match k with EString _ s | EQName _ s | EQRef _ s => Some s | _ => None end.
Fixpoint hash_get (es : list expr) (key : str) : option expr + unit :=
  match es with
  | [] => inl None
  | EKeyed _ k v :: es' =>
    match key_name k with
    | Some s => if str_eqb s key then inl (Some v) else hash_get es' key
    | None => hash_get es' key
    end
  | _ :: _ => inr tt
  end.
