(** * SpecLexErr: text that begins like a token but is none

    Which text is not a token, and what is reported about it.  Nothing here
    refers to the lexer. *)
From Verif Require Import Base Float Tokens Ast Ctx SpecLex.

(** [begins s r]: the first character of [s] is [r]; 0 if the text ends (at the
    end of the source or at a NUL) *)
Inductive begins : str -> Z -> Prop :=
| b_end : begins [] 0
| b_nul s : begins (0 :: s) 0
| b_rune r s : rune_ok r -> begins (encode_rune r ++ s) r.
Definition ends (s : str) : Prop := begins s 0.
(** letters, as the number scanner sees them: also those beyond ASCII *)
Definition letter (o : opts) (r : Z) : Prop := lower r \/ upper r \/ 128 <= r /\ o_isLetter o r = true.
Definition hex_digit (r : Z) : Prop := exists d, hex_char d r.
(** characters that begin a token, white space or a comment *)
Definition beginner (r : Z) : Prop :=
  lower r \/ upper r \/ digit r \/ In r (lit "={}[](),;.?:-+*%!>~@<|'/$`# ") \/ In r [""""%ch; 9; 10; 13].
(** the decimal digits of a number, without superfluous zeros *)
Definition number (ds : list Z) : Prop := Forall (fun d => 0 <= d <= 9) ds /\ 0 < hd 0 ds.
Definition kind (s : string) : args := [("string_type"%string, lit s)].
Definition token (s : str) : args := [("token"%string, s)].

(** [malformed o s code a k]: [s] (the rest of the source) does not begin with a
    token; [code] with the arguments [a] is reported, [k] bytes behind its start *)
Inductive malformed (o : opts) : str -> icode -> args -> Z -> Prop :=
(* strings and comments that do not end *)
| mf_single src rs cut s : sq src rs -> cut = [] \/ cut = ["\"%ch] -> ends s ->
    malformed o ("'"%ch :: encode src ++ cut ++ s) LEX_UNTERMINATED_STRING (kind "single") 0
| mf_double src rs cut s : o_factory o = true -> dq (o_hex o) src rs -> cut = [] \/ cut = ["\"%ch] -> ends s ->
    malformed o (""""%ch :: encode src ++ cut ++ s) LEX_UNTERMINATED_STRING (kind "double") 0
| mf_backtick rs s : o_backtick o = true -> Forall rune_ok rs -> ~ In "`"%ch rs -> ends s ->
    malformed o ("`"%ch :: encode rs ++ s) LEX_UNTERMINATED_STRING (kind "backtick") 0
| mf_comment rs s : Forall rune_ok rs -> ~ has_close rs -> ends s ->
    malformed o ("/"%ch :: "*"%ch :: encode rs ++ s) LEX_UNTERMINATED_COMMENT [] 0
(* characters that begin no token *)
| mf_no_backticks s : o_backtick o = false -> malformed o ("`"%ch :: s) LEX_UNEXPECTED_TOKEN (token (lit "`")) 0
| mf_character r s : rune_ok r -> ~ beginner r -> malformed o (encode_rune r ++ s) LEX_UNEXPECTED_TOKEN (token (encode_rune r)) 0
| mf_tilde s r : begins s r -> r <> ">"%ch -> malformed o ("~"%ch :: s) LEX_UNEXPECTED_TOKEN (token (lit "~")) 0
(* names and variables *)
| mf_colons s r : begins s r -> ~ lower r -> ~ upper r ->
    malformed o (":"%ch :: ":"%ch :: s) LEX_DOUBLE_COLON_NOT_FOLLOWED_BY_NAME [] 0
| mf_name w pre s r : qualified lower w -> pre = [] \/ pre = lit "::" -> begins s r -> ~ lower r ->
    malformed o (pre ++ w ++ ":"%ch :: ":"%ch :: s) LEX_INVALID_NAME [] 0
| mf_type w pre s r : qualified upper w -> pre = [] \/ pre = lit "::" -> begins s r -> ~ upper r ->
    malformed o (pre ++ w ++ ":"%ch :: ":"%ch :: s) LEX_INVALID_TYPE_NAME [] 0
| mf_variable w pre s r : qualified lower w -> pre = [] \/ pre = lit "::" -> begins s r -> ~ lower r -> r <> "_"%ch ->
    malformed o ("$"%ch :: pre ++ w ++ ":"%ch :: ":"%ch :: s) LEX_INVALID_VARIABLE_NAME [] 0
| mf_colon_variable s r : begins s r -> r <> ":"%ch -> malformed o ("$"%ch :: ":"%ch :: s) LEX_INVALID_VARIABLE_NAME [] 0
| mf_letter_variable pre s r : pre = [] \/ pre = lit "::" -> begins s r -> ~ lower r -> letter o r ->
    malformed o ("$"%ch :: pre ++ s) LEX_INVALID_VARIABLE_NAME [] (1 + zlen pre)
(* numbers *)
| mf_decimal ds s r : number ds -> begins s r -> letter o r -> r <> "e"%ch -> r <> "E"%ch ->
    malformed o (decimals ds ++ s) LEX_DIGIT_EXPECTED [] (zlen ds)
| mf_point ds x s r : number ds \/ ds = [0] -> In x ["."%ch; "e"%ch; "E"%ch] -> begins s r -> ~ digit r -> r <> "+"%ch -> r <> "-"%ch ->
    malformed o (decimals ds ++ x :: s) LEX_DIGIT_EXPECTED [] (zlen ds + 1)
| mf_hex x ds cs s r : x = "x"%ch \/ x = "X"%ch -> Forall2 hex_char ds cs -> begins s r -> ~ hex_digit r ->
    ds = [] \/ lower r \/ upper r \/ r = "_"%ch ->
    malformed o ("0"%ch :: x :: cs ++ s) LEX_HEXDIGIT_EXPECTED [] (2 + zlen cs)
| mf_octal ds s r : Forall (fun d => 0 <= d <= 7) ds -> begins s r -> r = "8"%ch \/ r = "9"%ch \/ letter o r ->
    (ds = [] -> ~ In r (lit "xXeE")) ->
    malformed o ("0"%ch :: decimals ds ++ s) LEX_OCTALDIGIT_EXPECTED [] (1 + zlen ds)
(* escapes in double quoted strings; the backslash is reported *)
| mf_unicode src rs ds cs s r : o_factory o = true -> dq (o_hex o) src rs -> Forall2 hex_char ds cs -> (List.length ds < 4)%nat ->
    begins s r -> ~ hex_digit r -> (ds = [] -> r <> "{"%ch) ->
    malformed o (""""%ch :: encode src ++ "\"%ch :: "u"%ch :: cs ++ s) LEX_MALFORMED_UNICODE_ESCAPE [] (1 + zlen (encode src))
| mf_unicode_braces src rs ds cs s r : o_factory o = true -> dq (o_hex o) src rs -> Forall2 hex_char ds cs ->
    begins s r -> ~ hex_digit r -> (r = "}"%ch -> ~ (2 <= List.length ds <= 6)%nat) ->
    malformed o (""""%ch :: encode src ++ "\"%ch :: "u"%ch :: "{"%ch :: cs ++ s) LEX_MALFORMED_UNICODE_ESCAPE [] (1 + zlen (encode src))
| mf_hexadecimal src rs d c s r : o_factory o = true -> o_hex o = true -> dq true src rs -> hex_char d c ->
    begins s r -> ~ hex_digit r ->
    malformed o (""""%ch :: encode src ++ "\"%ch :: "x"%ch :: c :: s) LEX_MALFORMED_HEX_ESCAPE [] (1 + zlen (encode src)).
