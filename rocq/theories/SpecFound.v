(** * SpecFound: what stands where an error says that it found something *)
From Verif Require Import Base.

(** [rest] begins with the bytes [w] *)
Definition leads (w rest : str) : Prop := exists r, rest = w ++ r.
(** [rest] begins with a byte in one of the ranges *)
Definition one_of (ranges : list (Z * Z)) (rest : str) : Prop :=
  exists c r, rest = c :: r /\ exists a b, In (a, b) ranges /\ a <= c <= b.

Definition byte (b : Z) : Prop := 0 <= b <= 255.
Definition upper : Z * Z := ("A"%ch, "Z"%ch).
Definition lower : Z * Z := ("a"%ch, "z"%ch).
Definition digit : Z * Z := ("0"%ch, "9"%ch).
Definition just (c : Z) : Z * Z := (c, c).

(** The names of tokens that are not the token's own text *)
Definition kinds : list str :=
  map lit ["EOF"; "identifier"; "type name"; "variable"; "integer literal"; "float literal";
           "boolean literal"; "string literal"; "dq string literal"; "heredoc"; "regexp"; "epp text"]%string.

(** [stands template name rest]: at the head of [rest] stands what an error
    message calls [name]; [template]: the source is an EPP template.
    A double-quoted string with interpolations and a heredoc are not placed. *)
Inductive stands (template : bool) : str -> str -> Prop :=
| punctuation_or_keyword w rest : ~ In w kinds -> leads w rest -> stands template w rest
| end_of_source : stands template (lit "EOF") []
| nul_byte r : stands template (lit "EOF") (0 :: r)
| identifier rest : one_of [lower] rest \/ leads (lit "::") rest -> stands template (lit "identifier") rest
| type_name rest : one_of [upper] rest \/ leads (lit "::") rest -> stands template (lit "type name") rest
| variable rest : leads (lit "$") rest -> stands template (lit "variable") rest
| integer rest : one_of [digit] rest -> stands template (lit "integer literal") rest
| float rest : one_of [digit] rest -> stands template (lit "float literal") rest
| boolean rest : leads (lit "true") rest \/ leads (lit "false") rest -> stands template (lit "boolean literal") rest
| string_ rest : one_of [just "'"%ch; just """"%ch; just "`"%ch; lower] rest \/ leads (lit "::") rest
                 -> stands template (lit "string literal") rest
| regexp rest : leads (lit "/") rest -> stands template (lit "regexp") rest
| composed rest : stands template (lit "dq string literal") rest
| heredoc rest : stands template (lit "heredoc") rest
| template_text rest : template = true -> stands template (lit "epp text") rest
| template_end rest : template = true -> stands template (lit "EOF") rest.

(** Two different tokens have the same name only as an opening brace (after a
    question mark or not) and as a bar (that opens or ends parameters). *)
Definition differ (expected found : str) : Prop :=
  expected <> found \/ found = lit "{" \/ found = lit "|".
