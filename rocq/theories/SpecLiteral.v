(** * SpecLiteral: what a literal tree denotes (C31, C32) *)
From Verif Require Import Base Float Ast Literal.

(** Equality of map keys in Go: the zeros of both signs are one key. *)
Definition same_key (a b : lv) : bool :=
  match a, b with
  | LvNil, LvNil | LvDefault, LvDefault => true
  | LvBool x, LvBool y => Bool.eqb x y
  | LvInt x, LvInt y => x =? y
  | LvStr x, LvStr y => str_eqb x y
  | LvFloat (Inf x), LvFloat (Inf y) => Bool.eqb x y
  | LvFloat (Fin n1 m1 e1), LvFloat (Fin n2 m2 e2) =>
    (* (-1)^n m 2^e, compared on a common denominator *)
    let z (n : bool) m e := (if n then - m else m) * 2 ^ (e - Z.min e1 e2) in
    z n1 m1 e1 =? z n2 m2 e2
  | _, _ => false
  end.
Definition may_be_key (v : lv) : Prop :=
  match v with LvList _ | LvMap _ => False | _ => True end.

(** The map that results from storing the pairs in order: every key once, in
    the order of first occurrence, with the value stored last. *)
Fixpoint firsts (ks : list lv) : list lv :=
  match ks with
  | [] => []
  | k :: ks' => k :: filter (fun k' => negb (same_key k k')) (firsts ks')
  end.
Definition last_of (pairs : list (lv * lv)) (k : lv) : lv :=
  fold_left (fun acc kv => if same_key k (fst kv) then snd kv else acc) pairs LvNil.
Definition map_of (pairs : list (lv * lv)) : list (lv * lv) :=
  map (fun k => (k, last_of pairs k)) (firsts (map fst pairs)).

(** [denotes e v]: the tree [e] is built from literals, and [v] is its value.
    Names, type references, regular expressions, reserved words and EPP text
    are literals whose value is their text. *)
Inductive denotes : expr -> lv -> Prop :=
| den_undef p : denotes (EUndef p) LvNil
| den_default p : denotes (EDefault p) LvDefault
| den_bool p b : denotes (EBool p b) (LvBool b)
| den_int p r z : denotes (EInt p r z) (LvInt z)
| den_float p f : denotes (EFloat p f) (LvFloat f)
| den_string p s : denotes (EString p s) (LvStr s)
| den_name p s : denotes (EQName p s) (LvStr s)
| den_ref p s : denotes (EQRef p s) (LvStr s)
| den_regexp p s : denotes (ERegexp p s) (LvStr s)
| den_render p s : denotes (ERenderString p s) (LvStr s)
| den_reserved p s f : denotes (EReserved p s f) (LvStr s)
| den_concat p q s : denotes (EConcat p [EString q s]) (LvStr s)
| den_heredoc p syn t v : denotes t v -> denotes (EHeredoc p syn t) v
| den_program p b ds v : denotes b v -> denotes (EProgram p b ds) v
| den_list p es vs : Forall2 denotes es vs -> denotes (EList p es) (LvList vs)
| den_hash p es pairs : denotes_entries es pairs -> Forall (fun kv => may_be_key (fst kv)) pairs ->
    denotes (EHash p es) (LvMap (map_of pairs))
with denotes_entries : list expr -> list (lv * lv) -> Prop :=
| den_nil : denotes_entries [] []
| den_cons p ke ve es k v pairs : denotes ke k -> denotes ve v -> denotes_entries es pairs ->
    denotes_entries (EKeyed p ke ve :: es) ((k, v) :: pairs).

(** What makes evaluation crash: somewhere in the tree there is a hash with an
    entry that is no pair, or with an array or a hash as key. *)
Inductive within : expr -> expr -> Prop :=
| within_here e : within e e
| within_program p b ds x : within x b -> within x (EProgram p b ds)
| within_heredoc p syn t x : within x t -> within x (EHeredoc p syn t)
| within_list p es e x : In e es -> within x e -> within x (EList p es)
| within_key p es q k v x : In (EKeyed q k v) es -> within x k -> within x (EHash p es)
| within_value p es q k v x : In (EKeyed q k v) es -> within x v -> within x (EHash p es).
Definition bad_hash (e : expr) : Prop :=
  exists p es x, e = EHash p es /\ In x es /\
    ((forall q k v, x <> EKeyed q k v)
     \/ (exists q k v kv, x = EKeyed q k v /\ denotes k kv /\ ~ may_be_key kv)).
