(** * PropertiesData: the reader, positions and PN (C01-C04, C06)

    Each theorem is stated with the vocabulary of SpecReader.v and SpecPn.v
    only, and closed by [exact] of the lemma proved elsewhere.  An Example
    beside each shows that its hypotheses are met by a concrete case. *)
From Verif Require Import Base Float Ast Pn Ctx Locator SpecReader ReaderProof SpecPn PnProof LocatorProof Conform Tokens Parser.

Definition at_start (text : str) : ctx :=
  mkctx text (mkopts false false false false false true no_letter) 0 0 TEnd 0 0 VNil 0 [] [].

(** ** C01 *)
Theorem C01_next_delivers_the_runes : forall (c : ctx) (rs : list Z),
  scalars rs -> ~ In 65533 rs -> c_text c = encode rs -> c_pos c = 0 ->
  exists c',
    read_runes (List.length rs) c = Ok (with_offsets 0 rs) c'
    /\ c_text c' = c_text c /\ c_pos c' = zlen (c_text c)
    /\ (exists c'', next c' = Ok (0, zlen (c_text c)) c'' /\ c_pos c'' = c_pos c').
Proof. exact reads_all. Qed.
Theorem C01_peek_is_next : forall c : ctx,
  match next c with
  | Ok (r, p) c' => p = c_pos c /\ c' = with_pos (c_pos c') c /\ peek c = Ok (r, c_pos c' - c_pos c) c
  | Err e c' => c' = c /\ peek c = Err e c
  | Fuel => False
  end.
Proof. exact peek_is_next. Qed.
Theorem C01_invalid_position_fails : forall c : ctx,
  Forall (fun b => 0 <= b <= 255) (c_text c) -> 0 <= c_pos c < zlen (c_text c) ->
  ((exists r, holds_rune (c_text c) (c_pos c) r /\ r <> 65533) ->
     exists r, holds_rune (c_text c) (c_pos c) r
               /\ next c = Ok (r, c_pos c) (with_pos (c_pos c + zlen (encode_rune r)) c))
  /\ (~ (exists r, holds_rune (c_text c) (c_pos c) r /\ r <> 65533) ->
     next c = Err (ParseErr (c_pos c)) c).
Proof. exact next_fails_iff. Qed.
(** 'a', a two, a three and a four byte rune *)
Example C01_case : let rs := [97; 246; 8364; 128512] in
  scalars rs /\ ~ In 65533 rs /\ encode rs = [97; 195; 182; 226; 130; 172; 240; 159; 152; 128]
  /\ with_offsets 0 rs = [(97, 0); (246, 1); (8364, 3); (128512, 6)].
Proof. repeat split; try (vm_compute; reflexivity); [repeat constructor; unfold scalar; lia|cbn; lia]. Qed.
Example C01_invalid_case : next (at_start [195; 40]) = Err (ParseErr 0) (at_start [195; 40]).
Proof. vm_compute. reflexivity. Qed.
Print Assumptions C01_next_delivers_the_runes.
Print Assumptions C01_peek_is_next.
Print Assumptions C01_invalid_position_fails.

(** ** C02 *)
Theorem C02_quote_reversible : forall s, valid_utf8 s ->
  exists body, doubleQuote s = 34 :: body /\ unquote body = Some (s, []).
Proof. exact quote_reversible. Qed.
Theorem C02_quote_printable : forall s,
  Forall (fun b => 0 <= b <= 255) s -> Forall (fun b => 32 <= b) (doubleQuote s).
Proof. exact quote_printable. Qed.
Example C02_case : valid_utf8 [34; 92; 10; 1; 195; 182; 36]
  /\ doubleQuote [34; 92; 10; 1; 195; 182; 36] = lit """\""\\\n\o001" ++ [195; 182] ++ lit "$""".
Proof. split; [exists [34; 92; 10; 1; 246; 36]; split; [repeat constructor; unfold scalar; lia|vm_compute; reflexivity]|vm_compute; reflexivity]. Qed.
Print Assumptions C02_quote_reversible.
Print Assumptions C02_quote_printable.

(** ** C03 *)
Theorem C03_format_readable : forall p, faithful p -> read_pn (format p) = Some p.
Proof. exact format_readable. Qed.
Theorem C03_format_injective : forall p q, faithful p -> faithful q -> format p = format q -> p = q.
Proof. exact format_injective. Qed.
Example C03_case :
  let p := PCall (lit "invoke") [PMap [(lit "functor", PCall (lit "qn") [PLit (LStr (lit "a b"))]);
                                       (lit "args", PList [PLit (LInt (-12)); PLit LNil; PLit (LBool true)])]] in
  faithful p /\ format p = lit "(invoke {:functor (qn ""a b"") :args [-12 nil true]})".
Proof.
  split; [|vm_compute; reflexivity].
  assert (valid_utf8 (lit "a b")) by (exists (lit "a b"); split; [repeat constructor; unfold scalar; cbn; lia|reflexivity]).
  repeat (assumption || constructor).
Qed.
Print Assumptions C03_format_readable.
Print Assumptions C03_format_injective.

(** ** C04 *)
Theorem C04_toData_lossless : forall p, of_data (toData p) = Some p.
Proof. exact toData_lossless. Qed.
Print Assumptions C04_toData_lossless.

(** ** C06 *)
Theorem C06_line : forall a b, plain_text (a ++ b) ->
  lineForOffset (encode (a ++ b)) (zlen (encode a)) = inl (1 + newlines (encode a)).
Proof. exact line_correct. Qed.
Theorem C06_column : forall a b, plain_text (a ++ b) ->
  posOnLine (encode (a ++ b)) (zlen (encode a)) = inl (1 + zlen (last_line [] a)).
Proof. exact column_correct. Qed.
Example C06_case : let a := [97; 10; 246; 98] in let b := [10; 99] in
  plain_text (a ++ b) /\ zlen (encode a) = 5
  /\ 1 + newlines (encode a) = 2 /\ 1 + zlen (last_line [] a) = 3.
Proof. repeat split; try (vm_compute; reflexivity); [repeat constructor; unfold scalar; lia| |]; cbn; lia. Qed.
Print Assumptions C06_line.
Print Assumptions C06_column.
