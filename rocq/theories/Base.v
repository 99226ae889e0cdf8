(** * Base: numbers, byte strings and UTF-8

    Go [int], [int64], [byte] and [rune] are modelled by [Z]; a Go string is
    the list of its bytes.  Only the operations of Go's [unicode/utf8],
    [bytes.Buffer], [strings] and [strconv] that the code base uses are
    modelled here. *)
From Coq Require Export List ZArith Bool Lia String Ascii.
From Coq Require Import Strings.Byte.
Export ListNotations.
Global Set Implicit Arguments.
Global Unset Strict Implicit.
Global Unset Printing Implicit Defensive.
Open Scope Z_scope.
Open Scope list_scope.
Global Arguments Z.add : simpl never.
Global Arguments Z.sub : simpl never.
Global Arguments Z.mul : simpl never.

(** A Go string: its bytes. *)
Definition str := list Z.

(** Character literals: ["a"%ch] is the number 97. *)
Definition ch_parse (l : list Byte.byte) : option Z :=
  match l with [b] => Some (Z.of_N (Byte.to_N b)) | _ => None end.
Definition ch_print (z : Z) : option (list Byte.byte) :=
  match z with
  | Zpos p => match Byte.of_N (Npos p) with Some b => Some [b] | None => None end
  | _ => None
  end.
Declare Scope ch_scope.
Delimit Scope ch_scope with ch.
String Notation Z ch_parse ch_print : ch_scope.

(** String literals. *)
Fixpoint lit (s : string) : str :=
  match s with
  | EmptyString => []
  | String a s' => Z.of_N (N_of_ascii a) :: lit s'
  end.

Definition zlen (A : Type) (l : list A) : Z := Z.of_nat (List.length l).

Fixpoint str_eqb (a b : str) : bool :=
  match a, b with
  | [], [] => true
  | x :: a', y :: b' => (x =? y) && str_eqb a' b'
  | _, _ => false
  end.

Lemma str_eqb_spec a b : reflect (a = b) (str_eqb a b).
Proof.
  revert b; induction a as [|x a IH]; intros [|y b]; cbn; try (constructor; congruence).
  destruct (Z.eqb_spec x y) as [->|H]; cbn.
  - destruct (IH b) as [->|H]; constructor; congruence.
  - constructor; congruence.
Qed.

Lemma str_eqb_eq a b : str_eqb a b = true <-> a = b.
Proof. destruct (str_eqb_spec a b); split; congruence. Qed.

Lemma str_eqb_refl a : str_eqb a a = true.
Proof. apply str_eqb_eq; reflexivity. Qed.

Definition mem_str (s : str) (l : list str) : bool := existsb (str_eqb s) l.

Lemma mem_str_In s l : mem_str s l = true <-> In s l.
Proof.
  unfold mem_str. rewrite existsb_exists. split.
  - intros (x & Hx & He). apply str_eqb_eq in He. now subst.
  - intros H. exists s. split; [exact H | apply str_eqb_refl].
Qed.

(** [s[a:b]] for [0 <= a <= b <= len s] (the callers check the bounds). *)
Definition slice (s : str) (a b : Z) : str :=
  firstn (Z.to_nat (b - a)) (skipn (Z.to_nat a) s).

(** strings.Join *)
Fixpoint join (sep : str) (l : list str) : str :=
  match l with
  | [] => []
  | [x] => x
  | x :: l' => x ++ sep ++ join sep l'
  end.

(** strings.TrimPrefix *)
Fixpoint trim_prefix_aux (p s : str) : option str :=
  match p, s with
  | [], _ => Some s
  | x :: p', y :: s' => if x =? y then trim_prefix_aux p' s' else None
  | _ :: _, [] => None
  end.
Definition trim_prefix (p s : str) : str :=
  match trim_prefix_aux p s with Some r => r | None => s end.

(** ** UTF-8 (unicode/utf8) *)

Definition rune_error : Z := 65533. (* U+FFFD *)

Definition is_cont (b lo hi : Z) : bool := (lo <=? b) && (b <=? hi).

(** utf8.DecodeRuneInString: the rune at the head of the string and its
    width; [(U+FFFD, 1)] for an invalid encoding, [(U+FFFD, 0)] for "". *)
Definition decode_rune (s : str) : Z * Z :=
  match s with
  | [] => (rune_error, 0)
  | b0 :: s1 =>
    if b0 <? 128 then (b0, 1)
    else if (b0 <? 194) || (244 <? b0) then (rune_error, 1)
    else
      let lo := if b0 =? 224 then 160 else if b0 =? 240 then 144 else 128 in
      let hi := if b0 =? 237 then 159 else if b0 =? 244 then 143 else 191 in
      match s1 with
      | [] => (rune_error, 1)
      | b1 :: s2 =>
        if negb (is_cont b1 lo hi) then (rune_error, 1)
        else if b0 <? 224 then ((b0 - 192) * 64 + (b1 - 128), 2)
        else match s2 with
        | [] => (rune_error, 1)
        | b2 :: s3 =>
          if negb (is_cont b2 128 191) then (rune_error, 1)
          else if b0 <? 240 then
            ((b0 - 224) * 4096 + (b1 - 128) * 64 + (b2 - 128), 3)
          else match s3 with
          | [] => (rune_error, 1)
          | b3 :: _ =>
            if negb (is_cont b3 128 191) then (rune_error, 1)
            else ((b0 - 240) * 262144 + (b1 - 128) * 4096 + (b2 - 128) * 64 + (b3 - 128), 4)
          end
        end
      end
  end.

(** utf8.EncodeRune, as bytes.Buffer.WriteRune and string(rune) use it:
    surrogates and values outside Unicode are written as U+FFFD. *)
Definition encode_rune_raw (r : Z) : str :=
  if r <? 128 then [r]
  else if r <? 2048 then [192 + r / 64; 128 + r mod 64]
  else if r <? 65536 then [224 + r / 4096; 128 + (r / 64) mod 64; 128 + r mod 64]
  else [240 + r / 262144; 128 + (r / 4096) mod 64; 128 + (r / 64) mod 64; 128 + r mod 64].
Definition valid_rune (r : Z) : bool :=
  ((0 <=? r) && (r <? 55296)) || ((57343 <? r) && (r <=? 1114111)).
Definition encode_rune (r : Z) : str :=
  if valid_rune r then encode_rune_raw r else encode_rune_raw rune_error.

(** The runes [for _, c := range s] delivers; an invalid byte counts as one
    U+FFFD.  Structural on a length bound. *)
Fixpoint runes_fuel (n : nat) (s : str) : list Z :=
  match n with
  | O => []
  | S n' =>
    match s with
    | [] => []
    | _ :: _ => let (r, w) := decode_rune s in r :: runes_fuel n' (skipn (Z.to_nat w) s)
    end
  end.
Definition runes (s : str) : list Z := runes_fuel (List.length s) s.

(** The UTF-8 text of a list of runes. *)
Definition encode (rs : list Z) : str := flat_map encode_rune rs.

(** ** ASCII classes of parser/lexer.go:835-861 *)
Definition in_range (lo c hi : Z) : bool := (lo <=? c) && (c <=? hi).
Definition isDecimalDigit (c : Z) : bool := in_range "0"%ch c "9"%ch.   (* lexer.go:835-837 *)
Definition isOctalDigit (c : Z) : bool := in_range "0"%ch c "7"%ch.     (* lexer.go:839-841 *)
Definition isHexDigit (c : Z) : bool :=                                 (* lexer.go:843-845 *)
  in_range "0"%ch c "9"%ch || in_range "A"%ch c "F"%ch || in_range "a"%ch c "f"%ch.
Definition isLowercaseLetter (c : Z) : bool := in_range "a"%ch c "z"%ch. (* lexer.go:855-857 *)
Definition isUppercaseLetter (c : Z) : bool := in_range "A"%ch c "Z"%ch. (* lexer.go:859-861 *)
Definition isLetter (c : Z) : bool :=                                   (* lexer.go:847-849 *)
  isUppercaseLetter c || isLowercaseLetter c || (c =? "_"%ch).
Definition isLetterOrDigit (c : Z) : bool := isDecimalDigit c || isLetter c. (* lexer.go:851-853 *)

(** ** strconv.ParseInt(s, base, bits), error ignored

    Every call in the code base discards the error.  Go then returns 0 for a
    syntax error and the nearest representable value on overflow. *)
Definition digit_val (c : Z) : option Z :=
  if in_range "0"%ch c "9"%ch then Some (c - "0"%ch)
  else if in_range "a"%ch c "z"%ch then Some (c - "a"%ch + 10)
  else if in_range "A"%ch c "Z"%ch then Some (c - "A"%ch + 10)
  else None.
Fixpoint parse_digits (base acc : Z) (s : str) : option Z :=
  match s with
  | [] => Some acc
  | c :: s' =>
    match digit_val c with
    | Some d => if d <? base then parse_digits base (acc * base + d) s' else None
    | None => None
    end
  end.
Definition parse_uint (base : Z) (s : str) : option Z :=
  match s with [] => None | _ => parse_digits base 0 s end.
Definition parse_int (s : str) (base bits : Z) : Z :=
  let cutoff := 2 ^ (bits - 1) in
  match s with
  | c :: s' =>
    if c =? "-"%ch then
      match parse_uint base s' with Some n => Z.max (- n) (- cutoff) | None => 0 end
    else
      match parse_uint base (if c =? "+"%ch then s' else s) with
      | Some n => Z.min n (cutoff - 1)
      | None => 0
      end
  | [] => 0
  end.

(** strconv.FormatInt(n, 10) and fmt's %d *)
Fixpoint format_digits (fuel : nat) (n : Z) (acc : str) : str :=
  match fuel with
  | O => acc
  | S f =>
    let acc' := ("0"%ch + n mod 10) :: acc in
    if n / 10 =? 0 then acc' else format_digits f (n / 10) acc'
  end.
Definition format_nat (n : Z) : str := format_digits (S (Z.to_nat (Z.log2 n))) n [].
Definition format_int (n : Z) : str :=
  if n <? 0 then "-"%ch :: format_nat (- n) else format_nat n.

(** strings.ToLower on the names the parser produces (ASCII letters, digits,
    '_' and ':') and, for Strict(), on any text: besides ASCII only U+0130
    and U+212A have an ASCII lower case form. *)
Definition lower_rune (r : Z) : list Z :=
  if isUppercaseLetter r then [r + 32]
  else if r =? 304 then ["i"%ch]
  else if r =? 8490 then ["k"%ch]
  else [r].
Definition to_lower_ascii (s : str) : str :=
  map (fun c => if isUppercaseLetter c then c + 32 else c) s.
