(** * SpecHeredoc: what a heredoc says

    Texts are lists of runes here; a source is their UTF-8 encoding. *)
From Verif Require Import Base SpecLex.

(** white space that the end tag line may contain *)
Definition space (r : Z) : Prop := r = 32 \/ r = 9 \/ r = 13.

(** ** The declaration, [@(TAG)], [@("TAG")], [@(TAG:syntax)], [@(TAG/flags)], ... *)
Record declaration := mkdeclaration {
  d_quoted : bool; d_tag : list Z; d_syntax : option (list Z); d_flags : option (list Z) }.
Definition declaration_text (d : declaration) : list Z :=
  (if d_quoted d then """"%ch :: d_tag d ++ [""""%ch] else d_tag d)
  ++ (match d_syntax d with Some s => ":"%ch :: s | None => [] end)
  ++ (match d_flags d with Some f => "/"%ch :: f | None => [] end) ++ [")"%ch].
Definition plain_in_declaration (r : Z) : Prop :=
  rune_ok r /\ r <> 10 /\ r <> ")"%ch /\ r <> ":"%ch /\ r <> "/"%ch /\ r <> """"%ch.
Definition declared (d : declaration) : Prop :=
  (exists r t, d_tag d = r :: t /\ ~ space r /\ r <> "|"%ch /\ r <> "-"%ch) /\
  (if d_quoted d then Forall (fun r => rune_ok r /\ r <> 10 /\ r <> """"%ch) (d_tag d)
   else Forall plain_in_declaration (d_tag d)) /\
  (forall s, d_syntax d = Some s -> Forall plain_in_declaration s) /\
  (forall f, d_flags d = Some f -> Forall (fun r => In r (lit "trnsuL$")) f).

(** the rest of the line of the declaration *)
Inductive line_rest : list Z -> Prop :=
| lr_plain a : Forall (fun r => rune_ok r /\ r <> 10 /\ r <> "#"%ch /\ r <> "/"%ch) a -> line_rest a
| lr_comment a b : Forall (fun r => rune_ok r /\ r <> 10 /\ r <> "#"%ch /\ r <> "/"%ch) a -> Forall (fun r => rune_ok r /\ r <> 10) b ->
    line_rest (a ++ "#"%ch :: b).

(** ** The lines of the content *)
(** A line that could end the heredoc: the tag alone, between white space. *)
Definition end_like (tag line : list Z) : Prop :=
  exists w1 w2, Forall space w1 /\ Forall space w2 /\ line = w1 ++ tag ++ w2.
(** A line that begins with a margin [|] or a dash. *)
Definition marked (line : list Z) : Prop :=
  exists w m l, Forall space w /\ (m = "|"%ch \/ m = "-"%ch) /\ line = w ++ m :: l.
Definition content_line (tag line : list Z) : Prop :=
  Forall (fun r => rune_ok r /\ r <> 10) line /\ ~ end_like tag line /\ ~ marked line.
(** the text of the content: every line is followed by a newline *)
Definition content (lines : list (list Z)) : list Z := flat_map (fun l => l ++ [10]) lines.

(** ** The end tag line, [TAG], [| TAG], [- TAG] or [|- TAG] *)
Record ending := mkending { e_before : list Z; e_margin : option (list Z); e_dash : option (list Z); e_after : list Z }.
Definition ending_text (tag : list Z) (e : ending) : list Z :=
  e_before e ++ (match e_margin e with Some w => "|"%ch :: w | None => [] end)
  ++ (match e_dash e with Some w => "-"%ch :: w | None => [] end) ++ tag ++ e_after e.
Definition ended (e : ending) : Prop :=
  Forall space (e_before e) /\ (forall w, e_margin e = Some w -> Forall space w) /\
  (forall w, e_dash e = Some w -> Forall space w) /\ Forall space (e_after e).
(** the number of blanks the margin takes off each line *)
Definition margin (e : ending) : nat := match e_margin e with Some _ => List.length (e_before e) | None => O end.
(** the dash takes off the end of the last line *)
Definition cut_end (lines : list (list Z)) (e : ending) (body : list Z) : Prop :=
  match e_dash e with
  | None => body = content lines
  | Some _ => exists b, content lines = b ++ [10] /\
      ((exists b', b = b' ++ [13] /\ body = b') \/ (~ (exists b', b = b' ++ [13]) /\ body = b))
  end.

(** ** What the content says
    [says n flags q bol src out]: where [n] blanks are taken off each line, the
    escapes [flags] are on, [q] tells whether the tag is quoted, [bol] whether
    [src] begins a line. A line with fewer than [n] blanks is left alone. *)
Definition is_flag (flags : list Z) (r : Z) : Prop :=
  (In r flags /\ r <> "L"%ch) \/ (r = 10 /\ In "L"%ch flags).
Definition simple_escape (r x : Z) : Prop :=
  (r = "r"%ch /\ x = 13) \/ (r = "n"%ch /\ x = 10) \/ (r = "t"%ch /\ x = 9) \/ (r = "s"%ch /\ x = 32) \/ (r = "$"%ch /\ x = "$"%ch).
Definition tab_or_space (r : Z) : Prop := r = 9 \/ r = 32.
Definition can_strip (n : nat) (src : list Z) : Prop :=
  exists a b, src = a ++ b /\ List.length a = n /\ Forall tab_or_space a.
Inductive says (n : nat) (flags : list Z) (q : bool) : bool -> list Z -> list Z -> Prop :=
| says_strip a b out : List.length a = n -> Forall tab_or_space a -> says n flags q false b out -> says n flags q true (a ++ b) out
| says_keep src out : ~ can_strip n src -> says n flags q false src out -> says n flags q true src out
| says_end : says n flags q false [] []
| says_newline src out : says n flags q true src out -> says n flags q false (10 :: src) (10 :: out)
| says_rune r src out : rune_ok r -> r <> 10 -> r <> "\"%ch -> (q = true -> r <> "$"%ch) ->
    says n flags q false src out -> says n flags q false (r :: src) (r :: out)
| says_last : says n flags q false ["\"%ch] ["\"%ch]
| says_backslash r src out : rune_ok r -> ~ is_flag flags r -> (q = true -> r <> "$"%ch) ->
    says n flags q (r =? 10) src out -> says n flags q false ("\"%ch :: r :: src) ("\"%ch :: r :: out)
| says_escape r x src out : is_flag flags r -> simple_escape r x -> says n flags q false src out ->
    says n flags q false ("\"%ch :: r :: src) (x :: out)
| says_join src out : is_flag flags 10 -> says n flags q true src out -> says n flags q false ("\"%ch :: 10 :: src) out
| says_unicode ds cs src out : is_flag flags "u"%ch -> Forall2 hex_char ds cs -> List.length ds = 4%nat -> valid_rune (value 16 ds) = true ->
    says n flags q false src out -> says n flags q false ("\"%ch :: "u"%ch :: cs ++ src) (value 16 ds :: out)
| says_unicode_braces ds cs src out : is_flag flags "u"%ch -> Forall2 hex_char ds cs -> (2 <= List.length ds <= 6)%nat -> valid_rune (value 16 ds) = true ->
    says n flags q false src out -> says n flags q false ("\"%ch :: "u"%ch :: "{"%ch :: cs ++ "}"%ch :: src) (value 16 ds :: out).
