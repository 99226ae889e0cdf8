(** * SpecPn: readers for PN text and PN data (C02, C03, C04)

    These readers are written from the description of the notation, not from
    the printer: they are what a consumer of the output would use. *)
From Verif Require Import Base Pn SpecReader.

(** *** Strings *)

Definition oct (c : Z) : option Z := if (48 <=? c) && (c <=? 55) then Some (c - 48) else None.

(** The inside of a double quoted PN string: the bytes it denotes and what
    follows the closing quote.  Escapes: backslash followed by t, n, r, a
    double quote, a backslash, or by o and three octal digits. *)
Fixpoint unquote (s : str) : option (str * str) :=
  let lit1 b s' := match unquote s' with Some (x, rest) => Some (b :: x, rest) | None => None end in
  match s with
  | [] => None
  | b :: s1 =>
    if b =? 34 then Some ([], s1)
    else if b =? 92 then
      match s1 with
      | [] => None
      | e :: s2 =>
        if e =? "t"%ch then lit1 9 s2
        else if e =? "n"%ch then lit1 10 s2
        else if e =? "r"%ch then lit1 13 s2
        else if e =? 34 then lit1 34 s2
        else if e =? 92 then lit1 92 s2
        else if e =? "o"%ch then
          match s2 with
          | a :: b :: c :: s3 =>
            match oct a, oct b, oct c with
            | Some x, Some y, Some z => lit1 (x * 64 + y * 8 + z) s3
            | _, _, _ => None
            end
          | _ => None
          end
        else None
      end
    else lit1 b s1
  end.

(** *** Whole trees *)

Definition delimiter (c : Z) : bool :=
  (c =? 32) || (c =? ")"%ch) || (c =? "]"%ch) || (c =? "}"%ch).

(** Everything up to the next delimiter. *)
Fixpoint word (s : str) : str * str :=
  match s with
  | c :: s' => if delimiter c then ([], s) else let (w, r) := word s' in (c :: w, r)
  | [] => ([], [])
  end.

Definition digits_value (s : str) : option Z :=
  match s with
  | [] => None
  | _ => fold_left (fun acc c => match acc with
                                 | Some n => if (48 <=? c) && (c <=? 57) then Some (n * 10 + (c - 48)) else None
                                 | None => None
                                 end) s (Some 0)
  end.
Definition int_value (s : str) : option Z :=
  match s with
  | c :: s' => if c =? "-"%ch then match digits_value s' with Some n => Some (- n) | None => None end
               else digits_value s
  | [] => None
  end.
Definition atom (w : str) : option pn :=
  if str_eqb w (lit "nil") then Some (PLit LNil)
  else if str_eqb w (lit "true") then Some (PLit (LBool true))
  else if str_eqb w (lit "false") then Some (PLit (LBool false))
  else match int_value w with Some z => Some (PLit (LInt z)) | None => None end.

(** Elements separated by one space, up to the closing bracket [close]. *)
Fixpoint elements (A : Type) (n : nat) (elem : str -> option (A * str)) (close : Z) (s : str)
  : option (list A * str) :=
  match n with
  | O => None
  | S n' =>
    match elem s with
    | None => None
    | Some (x, s1) =>
      match s1 with
      | c :: s2 =>
        if c =? close then Some ([x], s2)
        else if c =? 32 then
          match elements n' elem close s2 with Some (l, r) => Some (x :: l, r) | None => None end
        else None
      | [] => None
      end
    end
  end.
Definition bracketed (A : Type) (n : nat) (elem : str -> option (A * str)) (close : Z) (s : str)
  : option (list A * str) :=
  match s with
  | c :: s' => if c =? close then Some ([], s') else elements n elem close s
  | [] => None
  end.

Fixpoint read (n : nat) (s : str) : option (pn * str) :=
  match n with
  | O => None
  | S n' =>
    match s with
    | [] => None
    | c :: s1 =>
      if c =? 34 then
        match unquote s1 with Some (x, r) => Some (PLit (LStr x), r) | None => None end
      else if c =? "["%ch then
        match bracketed n' (read n') "]"%ch s1 with Some (l, r) => Some (PList l, r) | None => None end
      else if c =? "{"%ch then
        let entry s :=
          match s with
          | k :: s' =>
            if k =? ":"%ch then
              match word s' with
              | (name, sp :: s'') =>
                if sp =? 32 then
                  match read n' s'' with Some (v, r) => Some ((name, v), r) | None => None end
                else None
              | _ => None
              end
            else None
          | [] => None
          end in
        match bracketed n' entry "}"%ch s1 with Some (l, r) => Some (PMap l, r) | None => None end
      else if c =? "("%ch then
        match word s1 with
        | (name, d :: s2) =>
          if d =? ")"%ch then Some (PCall name [], s2)
          else if d =? 32 then
            match elements n' (read n') ")"%ch s2 with Some (l, r) => Some (PCall name l, r) | None => None end
          else None
        | _ => None
        end
      else
        let (w, r) := word s in
        match atom w with Some p => Some (p, r) | None => None end
    end
  end.
(** Reading a whole text. *)
Definition read_pn (s : str) : option pn :=
  match read (S (List.length s)) s with Some (p, []) => Some p | _ => None end.

(** The trees the printer is faithful on: no floats, strings that are UTF-8,
    call names and map keys without delimiters. *)
Definition valid_utf8 (s : str) : Prop := exists rs, scalars rs /\ s = encode rs.
Definition token_name (s : str) : Prop := Forall (fun c => delimiter c = false) s.
Inductive faithful : pn -> Prop :=
| F_nil : faithful (PLit LNil)
| F_bool b : faithful (PLit (LBool b))
| F_int z : faithful (PLit (LInt z))
| F_str s : valid_utf8 s -> faithful (PLit (LStr s))
| F_list l : Forall faithful l -> faithful (PList l)
| F_map es : Forall (fun e => token_name (fst e) /\ faithful (snd e)) es -> faithful (PMap es)
| F_call name l : token_name name -> Forall faithful l -> faithful (PCall name l).

(** *** Data *)
Fixpoint of_data (d : data) : option pn :=
  let fix all (l : list data) : option (list pn) :=
      match l with
      | [] => Some []
      | x :: l' => match of_data x, all l' with Some p, Some ps => Some (p :: ps) | _, _ => None end
      end in
  let fix pairs (l : list data) : option (list (str * pn)) :=
      match l with
      | [] => Some []
      | DVal (LStr k) :: x :: l' =>
        match of_data x, pairs l' with Some p, Some ps => Some ((k, p) :: ps) | _, _ => None end
      | _ => None
      end in
  match d with
  | DVal v => Some (PLit v)
  | DSlice l => match all l with Some ps => Some (PList ps) | None => None end
  | DMap1 key l =>
    if str_eqb key (lit "^") then
      match l with
      | DVal (LStr name) :: args => match all args with Some ps => Some (PCall name ps) | None => None end
      | _ => None
      end
    else if str_eqb key (lit "#") then
      match pairs l with Some es => Some (PMap es) | None => None end
    else None
  end.
