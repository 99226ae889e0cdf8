(** * Locator: line numbers and columns (parser/expression.go:559-605) *)
From Verif Require Import Base Float Tokens Ast Ctx.

(** getLineIndex (expression.go:581-593): the offsets at which lines start.
    [inr off]: the reader's *parseError.  Like the Go loop it stops at a NUL
    byte.  [i] is the offset of [s] in the text. *)
Fixpoint line_index (fuel : nat) (i : Z) (s : str) : list Z + Z :=
  match fuel with
  | O => inl []
  | S fuel' =>
    match s with
    | [] => inl []
    | b :: s' =>
      if b =? 0 then inl []
      else if b <? 128 then
        match line_index fuel' (i + 1) s' with
        | inl l => inl (if b =? 10 then (i + 1) :: l else l)
        | inr e => inr e
        end
      else
        let (r, w) := decode_rune s in
        if r =? rune_error then inr i
        else line_index fuel' (i + w) (skipn (Z.to_nat w) s)
    end
  end.
Definition getLineIndex (text : str) : list Z + Z :=
  match line_index (List.length text) 0 text with inl l => inl (0 :: l) | inr e => inr e end.

(** sort.SearchInts on a sorted slice: the number of elements below [x] *)
Definition searchInts (l : list Z) (x : Z) : Z := zlen (filter (fun y => y <? x) l).

(** LineForOffset (expression.go:572-574).  The error is what the Go code
    panics with. *)
Definition lineForOffset (text : str) (offset : Z) : Z + err :=
  match getLineIndex text with
  | inr off => inr (ParseErr off)
  | inl li => inl (searchInts li (offset + 1))
  end.

(** offsetOnLine, PosOnLine (expression.go:577-579, 595-607) *)
Definition posOnLine (text : str) (offset : Z) : Z + err :=
  match getLineIndex text with
  | inr off => inr (ParseErr off)
  | inl li =>
    let line := searchInts li (offset + 1) in
    if line <? 1 then inr (GoPanic GoIndex)
    else
      let lineStart := nth (Z.to_nat (line - 1)) li 0 in
      if offset =? lineStart then inl 1
      else
        let offset := if zlen text <? offset then zlen text else offset in
        if offset <? lineStart then inr (GoPanic GoSliceBounds)
        else inl (zlen (runes (slice text lineStart offset)) + 1)
  end.

(** Positioned.String (expression.go:615-617): the source text of a node *)
Definition node_text (text : str) (p : pos) : str + err :=
  if (0 <=? p_off p) && (p_off p <=? p_off p + p_len p) && (p_off p + p_len p <=? zlen text)
  then inl (slice text (p_off p) (p_off p + p_len p))
  else inr (GoPanic GoSliceBounds).
