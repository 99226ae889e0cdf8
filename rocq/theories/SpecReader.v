(** * SpecReader: specification of the reader and locator properties (C01, C06)

    Written against the API of stringReader and Locator only; the words used
    are runes (numbers), their UTF-8 text ([encode]) and byte offsets. *)
From Verif Require Import Base Ctx.

(** A list of Unicode scalar values (no surrogates, at most U+10FFFF). *)
Definition scalar (r : Z) : Prop := 0 <= r <= 55295 \/ 57344 <= r <= 1114111.
Definition scalars (rs : list Z) : Prop := Forall scalar rs.

(** The runes with the byte offset at which each starts. *)
Fixpoint with_offsets (o : Z) (rs : list Z) : list (Z * Z) :=
  match rs with
  | [] => []
  | r :: rs' => (r, o) :: with_offsets (o + zlen (encode_rune r)) rs'
  end.

(** Calling Next [n] times. *)
Fixpoint read_runes (n : nat) : M (list (Z * Z)) :=
  match n with
  | O => ret []
  | S n' => x <- next ;; l <- read_runes n' ;; ret (x :: l)
  end.

(** Byte offset [p] of [text] holds the rune [r]. *)
Definition holds_rune (text : str) (p r : Z) : Prop :=
  0 <= p /\ scalar r /\ exists t, skipn (Z.to_nat p) text = encode_rune r ++ t /\ p < zlen text.

(** The line of an offset: one more than the number of newlines before it. *)
Definition newlines (s : str) : Z := zlen (filter (Z.eqb 10) s).
(** The runes after the last newline. *)
Fixpoint last_line (acc rs : list Z) : list Z :=
  match rs with
  | [] => acc
  | r :: rs' => if r =? 10 then last_line [] rs' else last_line (acc ++ [r]) rs'
  end.
