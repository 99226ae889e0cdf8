(** * Pn: Puppet Extended S-Expression Notation (pn/pn.go, pn/quote.go) *)
From Verif Require Import Base Float.

(** literalPN values (pn.go:73-75); uint and float32 variants never occur *)
Inductive lval : Set :=
| LNil | LStr (s : str) | LInt (z : Z) | LFloat (f : f64) | LBool (b : bool).

(** pn.go:55-80: literalPN, listPN, mapPN, callPN *)
Inductive pn : Set :=
| PLit (v : lval)
| PList (l : list pn)
| PMap (entries : list (str * pn))
| PCall (name : str) (l : list pn).

(** pn.go:82 keyPattern: ^[A-Za-z_-][0-9A-Za-z_-]*$ (Go's $ without (?m) is \z) *)
Definition keyStart (c : Z) : bool := isLetter c || (c =? "-"%ch).
Definition keyChar (c : Z) : bool := keyStart c || isDecimalDigit c.
Definition keyOk (k : str) : bool :=
  match k with c :: k' => keyStart c && forallb keyChar k' | [] => false end.

(** pn.go:99-107 Map: panics unless every key conforms; [None] is the panic *)
Definition mkMap (entries : list (str * pn)) : option pn :=
  if forallb (fun e => keyOk (fst e)) entries then Some (PMap entries) else None.

(** AsCall (pn.go:125, 152, 198, 240) and AsParameters (pn.go:129, 156, 202, 244) *)
Definition asCall (name : str) (p : pn) : pn :=
  match p with
  | PList l => PCall name l
  | PCall _ l => PCall name l
  | PMap _ | PLit _ => PCall name [p]
  end.
Definition asParameters (p : pn) : list pn :=
  match p with
  | PList l | PCall _ l => l
  | PMap _ | PLit _ => [p]
  end.

(** quote.go:7-30 DoubleQuote: iterates the runes of the string *)
Definition quote_rune (c : Z) : str :=
  if c =? 9 then lit "\t"
  else if c =? 10 then lit "\n"
  else if c =? 13 then lit "\r"
  else if c =? 34 then [92; 34]
  else if c =? 92 then [92; 92]
  else if c <? 32 then lit "\o" ++ ["0"%ch + c / 64; "0"%ch + (c / 8) mod 8; "0"%ch + c mod 8]
  else encode_rune c.
Definition doubleQuote (s : str) : str :=
  34 :: flat_map quote_rune (runes s) ++ [34].

(** pn.go:250 StripTrailingZeroes = \A(.*(?:\.0|[1-9]))0+(e[+-]?\d+)?\z, as
    used at pn.go:276-281: the text without the 0+ part.  Because .* is
    greedy, a match at the end of the exponent is preferred to one in front of
    the exponent. *)
Fixpoint count_zeros (r : str) : nat * str :=   (* leading zeros of a reversed text *)
  match r with
  | c :: r' => if c =? "0"%ch then let (n, t) := count_zeros r' in (S n, t) else (O, r)
  | [] => (O, [])
  end.
Definition strip_tail (s : str) : option str :=
  let (n, t) := count_zeros (rev s) in
  match t with
  | c :: _ =>
    if (0 <? Z.of_nat n) && in_range "1"%ch c "9"%ch then Some (rev t)
    else if (1 <? Z.of_nat n) && (c =? "."%ch) then Some (rev ("0"%ch :: t))
    else None
  | [] => None
  end.
Fixpoint split_e (s : str) : option (str * str) :=
  match s with
  | c :: s' =>
    if c =? "e"%ch then Some ([], s)
    else match split_e s' with Some (a, b) => Some (c :: a, b) | None => None end
  | [] => None
  end.
Definition strip_zeroes (s : str) : str :=
  match strip_tail s with
  | Some t => t
  | None =>
    match split_e s with
    | Some (m, x) => match strip_tail m with Some t => t ++ x | None => s end
    | None => s
    end
  end.

(** pn.go:265-281: text of a float *)
Definition format_f64 (f : f64) : str :=
  let g := sprintf_16g f in
  let s := if existsb (Z.eqb "."%ch) g || existsb (Z.eqb "e"%ch) g then g else sprintf_16e f in
  strip_zeroes s.

(** pn.go:252-288 literalPN.Format *)
Definition formatLit (v : lval) : str :=
  match v with
  | LNil => lit "nil"
  | LStr s => doubleQuote s
  | LInt z => format_int z
  | LFloat f => format_f64 f
  | LBool true => lit "true"
  | LBool false => lit "false"
  end.

(** pn.go:302-311 formatElements: elements separated by one space *)
Fixpoint sep_space (l : list str) : str :=
  match l with
  | [] => []
  | [x] => x
  | x :: l' => x ++ 32 :: sep_space l'
  end.

(** Format (pn.go:133-137, 160-168, 206-223, 252) *)
Fixpoint format (p : pn) : str :=
  match p with
  | PLit v => formatLit v
  | PList l => "["%ch :: sep_space (map format l) ++ ["]"%ch]
  | PMap es =>
    "{"%ch :: sep_space (map (fun e => ":"%ch :: fst e ++ 32 :: format (snd e)) es) ++ ["}"%ch]
  | PCall name l =>
    "("%ch :: name ++
      match l with [] => [] | _ => 32 :: sep_space (map format l) end ++ [")"%ch]
  end.

(** The data ToData produces: primitives, slices, and maps with one key *)
Inductive data : Set :=
| DVal (v : lval)
| DSlice (l : list data)
| DMap1 (key : str) (l : list data).   (* map[string]interface{}{key: []interface{}} *)

(** ToData (pn.go:139-145, 170-179, 225-232, 290-292) *)
Fixpoint toData (p : pn) : data :=
  match p with
  | PLit v => DVal v
  | PList l => DSlice (map toData l)
  | PCall name l => DMap1 (lit "^") (DVal (LStr name) :: map toData l)
  | PMap es => DMap1 (lit "#") (flat_map (fun e => [DVal (LStr (fst e)); toData (snd e)]) es)
  end.
