(** * ConformParser: generated by tools/goconf.py from parser/parser_test.go

    Each Go test becomes an Example that the model passes by computation.
    These are tests of the model against the expectations recorded in the
    repository, not property proofs. *)
From Verif Require Import Base Float Tokens Ast Pn ToPN Ctx Locator Lexer Parser Messages Literal Visit Validator Api Conform.
Example TestEmpty_1 : block (mkopts false false false false false true no_letter) (lit "") = Some (lit "(block)").
Proof. vm_compute. reflexivity. Qed.
Example TestInvalidUnicode_2 : error (mkopts false false false false false true no_letter) [36; 118; 97; 114; 32; 61; 32; 34; 160; 161; 34] = Some (lit "invalid unicode character at offset 8").
Proof. vm_compute. reflexivity. Qed.
Example TestInvalidUnicode_3 : error (mkopts false false false false false true no_letter) [36; 118; 97; 114; 32; 61; 32; 50; 51; 160; 161] = Some (lit "invalid unicode character at offset 9").
Proof. vm_compute. reflexivity. Qed.
Example TestInteger_4 : dump (mkopts false false false false false true no_letter) (lit "0") = Some (lit "0").
Proof. vm_compute. reflexivity. Qed.
Example TestInteger_5 : dump (mkopts false false false false false true no_letter) (lit "123") = Some (lit "123").
Proof. vm_compute. reflexivity. Qed.
Example TestInteger_6 : dump (mkopts false false false false false true no_letter) (lit "+123") = Some (lit "123").
Proof. vm_compute. reflexivity. Qed.
Example TestInteger_7 : dump (mkopts false false false false false true no_letter) (lit "0XABC") = Some (lit "(int {:radix 16 :value 2748})").
Proof. vm_compute. reflexivity. Qed.
Example TestInteger_8 : dump (mkopts false false false false false true no_letter) (lit "0772") = Some (lit "(int {:radix 8 :value 506})").
Proof. vm_compute. reflexivity. Qed.
Example TestInteger_9 : error (mkopts false false false false false true no_letter) (lit "3g") = Some (lit "digit expected (line: 1, column: 2)").
Proof. vm_compute. reflexivity. Qed.
Example TestInteger_10 : error (mkopts false false false false false true no_letter) [51; 195; 182] = Some (lit "digit expected (line: 1, column: 2)").
Proof. vm_compute. reflexivity. Qed.
Example TestInteger_11 : error (mkopts false false false false false true no_letter) (lit "0x3g21") = Some (lit "hexadecimal digit expected (line: 1, column: 4)").
Proof. vm_compute. reflexivity. Qed.
Example TestInteger_12 : error (mkopts false false false false false true no_letter) (lit "078") = Some (lit "octal digit expected (line: 1, column: 3)").
Proof. vm_compute. reflexivity. Qed.
Example TestNegativeInteger_13 : dump (mkopts false false false false false true no_letter) (lit "-123") = Some (lit "-123").
Proof. vm_compute. reflexivity. Qed.
Example TestFloat_14 : dump (mkopts false false false false false true no_letter) (lit "0.123") = Some (lit "0.123").
Proof. vm_compute. reflexivity. Qed.
Example TestFloat_15 : dump (mkopts false false false false false true no_letter) (lit "123.32") = Some (lit "123.32").
Proof. vm_compute. reflexivity. Qed.
Example TestFloat_16 : dump (mkopts false false false false false true no_letter) (lit "+123.32") = Some (lit "123.32").
Proof. vm_compute. reflexivity. Qed.
Example TestFloat_17 : dump (mkopts false false false false false true no_letter) (lit "-123.32") = Some (lit "-123.32").
Proof. vm_compute. reflexivity. Qed.
Example TestFloat_18 : dump (mkopts false false false false false true no_letter) (lit "12e12") = Some (lit "1.2e+13").
Proof. vm_compute. reflexivity. Qed.
Example TestFloat_19 : dump (mkopts false false false false false true no_letter) (lit "12e-12") = Some (lit "1.2e-11").
Proof. vm_compute. reflexivity. Qed.
Example TestFloat_20 : dump (mkopts false false false false false true no_letter) (lit "12.23e12") = Some (lit "1.223e+13").
Proof. vm_compute. reflexivity. Qed.
Example TestFloat_21 : dump (mkopts false false false false false true no_letter) (lit "12.23e-12") = Some (lit "1.223e-11").
Proof. vm_compute. reflexivity. Qed.
Example TestFloat_22 : error (mkopts false false false false false true no_letter) (lit "123.a") = Some (lit "digit expected (line: 1, column: 5)").
Proof. vm_compute. reflexivity. Qed.
Example TestFloat_23 : error (mkopts false false false false false true no_letter) (lit "123.4a") = Some (lit "digit expected (line: 1, column: 6)").
Proof. vm_compute. reflexivity. Qed.
Example TestFloat_24 : error (mkopts false false false false false true no_letter) (lit "123.45ex") = Some (lit "digit expected (line: 1, column: 8)").
Proof. vm_compute. reflexivity. Qed.
Example TestFloat_25 : error (mkopts false false false false false true no_letter) (lit "123.45e3x") = Some (lit "digit expected (line: 1, column: 9)").
Proof. vm_compute. reflexivity. Qed.
Example TestBoolean_26 : dump (mkopts false false false false false true no_letter) (lit "false") = Some (lit "false").
Proof. vm_compute. reflexivity. Qed.
Example TestBoolean_27 : dump (mkopts false false false false false true no_letter) (lit "true") = Some (lit "true").
Proof. vm_compute. reflexivity. Qed.
Example TestDefault_28 : dump (mkopts false false false false false true no_letter) (lit "default") = Some (lit "(default)").
Proof. vm_compute. reflexivity. Qed.
Example TestUndef_29 : dump (mkopts false false false false false true no_letter) (lit "undef") = Some (lit "nil").
Proof. vm_compute. reflexivity. Qed.
Example TestSingleQuoted_30 : dump (mkopts false false false false false true no_letter) (lit "'undef'") = Some (lit """undef""").
Proof. vm_compute. reflexivity. Qed.
Example TestSingleQuoted_31 : dump (mkopts false false false false false true no_letter) (lit "'escaped single \''") = Some (lit """escaped single '""").
Proof. vm_compute. reflexivity. Qed.
Example TestSingleQuoted_32 : dump (mkopts false false false false false true no_letter) (lit "'unknown escape \k'") = Some (lit """unknown escape \\k""").
Proof. vm_compute. reflexivity. Qed.
Example TestDoubleQuoted_33 : dump (mkopts false false false false false true no_letter) (lit """string\nwith\t\\t,\s\\s, \\r, and \\n\r\n""") = Some (lit """string\nwith\t\\t, \\s, \\r, and \\n\r\n""").
Proof. vm_compute. reflexivity. Qed.
Example TestDoubleQuoted_34 : dump (mkopts false false false false false true no_letter) (lit """unknown \k escape""") = Some (lit """unknown \\k escape""").
Proof. vm_compute. reflexivity. Qed.
Example TestDoubleQuoted_35 : dump (mkopts false false false false false true no_letter) (lit """control \u{14}""") = Some (lit """control \o024""").
Proof. vm_compute. reflexivity. Qed.
Example TestDoubleQuoted_36 : dump (mkopts false false false false false true no_letter) (lit """$var""") = Some (lit "(concat (str (var ""var"")))").
Proof. vm_compute. reflexivity. Qed.
Example TestDoubleQuoted_37 : dump (mkopts false false false false false true no_letter) (lit """hello $var""") = Some (lit "(concat ""hello "" (str (var ""var"")))").
Proof. vm_compute. reflexivity. Qed.
Example TestDoubleQuoted_38 : dump (mkopts false false false false false true no_letter) (lit """hello ${var}""") = Some (lit "(concat ""hello "" (str (var ""var"")))").
Proof. vm_compute. reflexivity. Qed.
Example TestDoubleQuoted_39 : dump (mkopts false false false false false true no_letter) (lit """hello ${}""") = Some (lit "(concat ""hello "" (str nil))").
Proof. vm_compute. reflexivity. Qed.
Example TestDoubleQuoted_40 : dump (mkopts false false false false false true no_letter) (lit """Before ${{ a => true, b => ""hello""}} and after""") = Some (lit "(concat ""Before "" (str (hash (=> (qn ""a"") true) (=> (qn ""b"") ""hello""))) "" and after"")").
Proof. vm_compute. reflexivity. Qed.
Example TestDoubleQuoted_41 : dump (mkopts false false false false false true no_letter) (lit """x\u{1f452}y""") = Some [34; 120; 240; 159; 145; 146; 121; 34].
Proof. vm_compute. reflexivity. Qed.
Example TestDoubleQuoted_42 : error (mkopts false false false false false true no_letter) (lit """$Var""") = Some (lit "malformed interpolation expression (line: 1, column: 2)").
Proof. vm_compute. reflexivity. Qed.
Example TestDoubleQuoted_43 : error (mkopts false false false false false true no_letter) [36; 120; 32; 61; 32; 34; 121; 10; 110; 111; 116; 105; 99; 101; 40; 36; 120; 41] = Some (lit "unterminated double quoted string (line: 1, column: 6)").
Proof. vm_compute. reflexivity. Qed.
Example TestDoubleQuoted_44 : error (mkopts false false false false false true no_letter) (lit "$x = ""y${var""") = Some (lit "unterminated double quoted string (line: 1, column: 13)").
Proof. vm_compute. reflexivity. Qed.
Example TestDoubleQuoted_45 : dump (mkopts false false false false false true no_letter) (lit """x\u2713y""") = Some [34; 120; 226; 156; 147; 121; 34].
Proof. vm_compute. reflexivity. Qed.
Example TestRegexp_46 : dump (mkopts false false false false false true no_letter) (lit "$a = /.*/") = Some (lit "(= (var ""a"") (regexp "".*""))").
Proof. vm_compute. reflexivity. Qed.
Example TestRegexp_47 : dump (mkopts false false false false false true no_letter) (lit "/pattern\/with\/slash/") = Some (lit "(regexp ""pattern/with/slash"")").
Proof. vm_compute. reflexivity. Qed.
Example TestRegexp_48 : dump (mkopts false false false false false true no_letter) (lit "/pattern\/with\\\/slash/") = Some (lit "(regexp ""pattern/with\\\\/slash"")").
Proof. vm_compute. reflexivity. Qed.
Example TestRegexp_49 : dump (mkopts false false false false false true no_letter) (lit "/escaped \t/") = Some (lit "(regexp ""escaped \\t"")").
Proof. vm_compute. reflexivity. Qed.
Example TestRegexp_50 : dump (mkopts false false false false false true no_letter) [47; 101; 115; 99; 97; 112; 101; 100; 32; 35; 114; 120; 32; 99; 111; 109; 109; 101; 110; 116; 10; 99; 111; 110; 116; 105; 110; 117; 101; 115; 10; 46; 42; 47] = Some (lit "(regexp ""escaped #rx comment\ncontinues\n.*"")").
Proof. vm_compute. reflexivity. Qed.
Example TestRegexp_51 : error (mkopts false false false false false true no_letter) (lit "$a = /.*") = Some (lit "unexpected token '/' (line: 1, column: 6)").
Proof. vm_compute. reflexivity. Qed.
Example TestReserved_52 : dump (mkopts false false false false false true no_letter) (lit "$a = attr") = Some (lit "(= (var ""a"") (reserved ""attr""))").
Proof. vm_compute. reflexivity. Qed.
Example TestReserved_53 : dump (mkopts false false false false false true no_letter) (lit "$a = private") = Some (lit "(= (var ""a"") (reserved ""private""))").
Proof. vm_compute. reflexivity. Qed.
Example TestHeredoc_54 : option_map snd (heredoc (mkopts false false false false false true no_letter) [64; 40; 69; 78; 68; 41; 10; 69; 78; 68]) = Some (lit "").
Proof. vm_compute. reflexivity. Qed.
Example TestHeredoc_55 : option_map snd (heredoc (mkopts false false false false false true no_letter) [64; 40; 69; 78; 68; 41; 10; 84; 104; 105; 115; 32; 105; 115; 10; 104; 101; 114; 101; 100; 111; 99; 32; 116; 101; 120; 116; 10; 69; 78; 68]) = Some [84; 104; 105; 115; 32; 105; 115; 10; 104; 101; 114; 101; 100; 111; 99; 32; 116; 101; 120; 116; 10].
Proof. vm_compute. reflexivity. Qed.
Example TestHeredoc_56 : error (mkopts false false false false false true no_letter) [64; 40; 69; 78; 68; 41; 10; 84; 104; 105; 115; 32; 105; 115; 10; 104; 101; 114; 101; 100; 111; 99; 32; 116; 101; 120; 116] = Some (lit "unterminated heredoc (line: 1, column: 1)").
Proof. vm_compute. reflexivity. Qed.
Example TestHeredoc_57 : dump (mkopts false false false false false true no_letter) [123; 32; 97; 32; 61; 62; 32; 64; 40; 79; 78; 69; 41; 44; 32; 98; 32; 61; 62; 32; 64; 40; 84; 87; 79; 41; 32; 125; 10; 84; 104; 101; 32; 102; 105; 114; 115; 116; 10; 104; 101; 114; 101; 100; 111; 99; 32; 116; 101; 120; 116; 10; 45; 79; 78; 69; 10; 84; 104; 101; 32; 115; 101; 99; 111; 110; 100; 10; 104; 101; 114; 101; 100; 111; 99; 32; 116; 101; 120; 116; 10; 45; 84; 87; 79] = Some (lit "(hash (=> (qn ""a"") (heredoc {:text ""The first\nheredoc text""})) (=> (qn ""b"") (heredoc {:text ""The second\nheredoc text""})))").
Proof. vm_compute. reflexivity. Qed.
Example TestHeredoc_58 : dump (mkopts false false false false false true no_letter) [91; 39; 102; 105; 114; 115; 116; 39; 44; 32; 64; 40; 83; 69; 67; 79; 78; 68; 41; 44; 32; 39; 116; 104; 105; 114; 100; 39; 44; 32; 64; 40; 70; 79; 85; 82; 84; 72; 41; 44; 32; 39; 102; 105; 102; 116; 104; 39; 44; 10; 32; 32; 84; 104; 105; 115; 32; 105; 115; 32; 116; 104; 101; 32; 116; 101; 120; 116; 32; 111; 102; 32; 116; 104; 101; 10; 32; 32; 115; 101; 99; 111; 110; 100; 32; 101; 110; 116; 114; 121; 10; 32; 32; 124; 45; 83; 69; 67; 79; 78; 68; 10; 32; 32; 65; 110; 100; 32; 104; 101; 114; 101; 32; 105; 115; 32; 116; 104; 101; 32; 116; 101; 120; 116; 32; 111; 102; 32; 116; 104; 101; 10; 32; 32; 102; 111; 117; 114; 116; 104; 32; 101; 110; 116; 114; 121; 10; 32; 32; 124; 45; 70; 79; 85; 82; 84; 72; 10; 32; 32; 39; 115; 105; 120; 116; 104; 39; 93] = Some (lit "(array ""first"" (heredoc {:text ""This is the text of the\nsecond entry""}) ""third"" (heredoc {:text ""And here is the text of the\nfourth entry""}) ""fifth"" ""sixth"")").
Proof. vm_compute. reflexivity. Qed.
Example TestHeredoc_59 : error (mkopts false false false false false true no_letter) [64; 40; 69; 78; 68; 10; 47; 116; 41; 10; 84; 104; 105; 115; 92; 110; 105; 115; 92; 110; 104; 101; 114; 101; 100; 111; 99; 92; 110; 116; 101; 120; 116; 10; 45; 69; 78; 68] = Some (lit "unterminated @( (line: 1, column: 1)").
Proof. vm_compute. reflexivity. Qed.
Example TestHeredoc_60 : error (mkopts false false false false false true no_letter) [64; 40; 69; 78; 68; 41; 10; 84; 104; 105; 115; 92; 110; 105; 115; 92; 110; 104; 101; 114; 101; 100; 111; 99; 92; 110; 116; 101; 120; 116; 10; 10] = Some (lit "unterminated heredoc (line: 1, column: 1)").
Proof. vm_compute. reflexivity. Qed.
Example TestHeredoc_61 : error (mkopts false false false false false true no_letter) (lit "@(END)") = Some (lit "unterminated heredoc (line: 1, column: 1)").
Proof. vm_compute. reflexivity. Qed.
Example TestHeredocSyntax_62 : dump (mkopts false false false false false true no_letter) [64; 40; 69; 78; 68; 58; 115; 121; 110; 116; 97; 120; 41; 10; 84; 104; 105; 115; 32; 105; 115; 10; 104; 101; 114; 101; 100; 111; 99; 32; 116; 101; 120; 116; 10; 69; 78; 68] = Some (lit "(heredoc {:syntax ""syntax"" :text ""This is\nheredoc text\n""})").
Proof. vm_compute. reflexivity. Qed.
Example TestHeredocSyntax_63 : error (mkopts false false false false false true no_letter) [64; 40; 69; 78; 68; 58; 106; 115; 111; 110; 58; 121; 97; 109; 108; 41; 10; 84; 104; 105; 115; 32; 105; 115; 10; 104; 101; 114; 101; 100; 111; 99; 32; 116; 101; 120; 116] = Some (lit "more than one syntax declaration in heredoc (line: 1, column: 11)").
Proof. vm_compute. reflexivity. Qed.
Example TestHeredocFlags_64 : option_map snd (heredoc (mkopts false false false false false true no_letter) [64; 40; 69; 78; 68; 47; 116; 41; 10; 84; 104; 105; 115; 92; 116; 105; 115; 92; 116; 10; 104; 101; 114; 101; 100; 111; 99; 32; 116; 101; 120; 116; 10; 45; 69; 78; 68]) = Some [84; 104; 105; 115; 9; 105; 115; 9; 10; 104; 101; 114; 101; 100; 111; 99; 32; 116; 101; 120; 116].
Proof. vm_compute. reflexivity. Qed.
Example TestHeredocFlags_65 : option_map snd (heredoc (mkopts false false false false false true no_letter) [64; 40; 69; 78; 68; 47; 115; 41; 10; 84; 104; 105; 115; 92; 115; 105; 115; 92; 115; 104; 101; 114; 101; 100; 111; 99; 92; 115; 116; 101; 120; 116; 10; 45; 69; 78; 68]) = Some (lit "This is heredoc text").
Proof. vm_compute. reflexivity. Qed.
Example TestHeredocFlags_66 : option_map snd (heredoc (mkopts false false false false false true no_letter) [64; 40; 69; 78; 68; 47; 114; 41; 10; 84; 104; 105; 115; 92; 114; 105; 115; 92; 114; 104; 101; 114; 101; 100; 111; 99; 92; 114; 116; 101; 120; 116; 10; 45; 69; 78; 68]) = Some [84; 104; 105; 115; 13; 105; 115; 13; 104; 101; 114; 101; 100; 111; 99; 13; 116; 101; 120; 116].
Proof. vm_compute. reflexivity. Qed.
Example TestHeredocFlags_67 : option_map snd (heredoc (mkopts false false false false false true no_letter) [64; 40; 69; 78; 68; 47; 110; 41; 10; 84; 104; 105; 115; 92; 110; 105; 115; 92; 110; 104; 101; 114; 101; 100; 111; 99; 92; 110; 116; 101; 120; 116; 10; 45; 69; 78; 68]) = Some [84; 104; 105; 115; 10; 105; 115; 10; 104; 101; 114; 101; 100; 111; 99; 10; 116; 101; 120; 116].
Proof. vm_compute. reflexivity. Qed.
Example TestHeredocFlags_68 : heredoc (mkopts false false false false false true no_letter) [64; 40; 69; 78; 68; 58; 115; 121; 110; 116; 97; 120; 47; 110; 41; 10; 84; 104; 105; 115; 92; 110; 105; 115; 92; 110; 104; 101; 114; 101; 100; 111; 99; 92; 110; 116; 101; 120; 116; 10; 45; 69; 78; 68] = Some ((lit "syntax"), [84; 104; 105; 115; 10; 105; 115; 10; 104; 101; 114; 101; 100; 111; 99; 10; 116; 101; 120; 116]).
Proof. vm_compute. reflexivity. Qed.
Example TestHeredocFlags_69 : error (mkopts false false false false false true no_letter) [64; 40; 69; 78; 68; 47; 107; 41; 10; 84; 104; 105; 115; 92; 110; 105; 115; 92; 110; 104; 101; 114; 101; 100; 111; 99; 92; 110; 116; 101; 120; 116; 10; 45; 69; 78; 68] = Some (lit "illegal heredoc escape 'k' (line: 1, column: 7)").
Proof. vm_compute. reflexivity. Qed.
Example TestHeredocFlags_70 : error (mkopts false false false false false true no_letter) [64; 40; 69; 78; 68; 47; 116; 47; 115; 41; 10; 84; 104; 105; 115; 92; 110; 105; 115; 92; 110; 104; 101; 114; 101; 100; 111; 99; 92; 110; 116; 101; 120; 116; 10; 45; 69; 78; 68] = Some (lit "more than one declaration of escape flags in heredoc (line: 1, column: 8)").
Proof. vm_compute. reflexivity. Qed.
Example TestHeredocStripNL_71 : option_map snd (heredoc (mkopts false false false false false true no_letter) [64; 40; 69; 78; 68; 41; 13; 10; 84; 104; 105; 115; 32; 105; 115; 13; 10; 104; 101; 114; 101; 100; 111; 99; 32; 116; 101; 120; 116; 13; 10; 45; 69; 78; 68]) = Some [84; 104; 105; 115; 32; 105; 115; 13; 10; 104; 101; 114; 101; 100; 111; 99; 32; 116; 101; 120; 116].
Proof. vm_compute. reflexivity. Qed.
Example TestHeredocMargin_72 : option_map snd (heredoc (mkopts false false false false false true no_letter) [64; 40; 69; 78; 68; 47; 116; 41; 10; 32; 32; 84; 104; 105; 115; 92; 116; 105; 115; 10; 32; 32; 104; 101; 114; 101; 100; 111; 99; 32; 116; 101; 120; 116; 10; 32; 32; 124; 32; 69; 78; 68; 10]) = Some [84; 104; 105; 115; 9; 105; 115; 10; 104; 101; 114; 101; 100; 111; 99; 32; 116; 101; 120; 116; 10].
Proof. vm_compute. reflexivity. Qed.
Example TestHeredocMargin_73 : option_map snd (heredoc (mkopts false false false false false true no_letter) [64; 40; 69; 78; 68; 41; 10; 32; 32; 124; 32; 69; 78; 68; 10]) = Some (lit "").
Proof. vm_compute. reflexivity. Qed.
Example TestHeredocMargin_74 : option_map snd (heredoc (mkopts false false false false false true no_letter) [64; 40; 69; 78; 68; 47; 116; 41; 10; 32; 32; 84; 104; 105; 115; 92; 116; 105; 115; 10; 32; 104; 101; 114; 101; 100; 111; 99; 32; 116; 101; 120; 116; 10; 32; 32; 124; 32; 69; 78; 68; 10]) = Some [84; 104; 105; 115; 9; 105; 115; 10; 32; 104; 101; 114; 101; 100; 111; 99; 32; 116; 101; 120; 116; 10].
Proof. vm_compute. reflexivity. Qed.
Example TestHeredocMarginAndNewlineTrim_75 : option_map snd (heredoc (mkopts false false false false false true no_letter) [64; 40; 69; 78; 68; 47; 116; 41; 10; 32; 32; 84; 104; 105; 115; 92; 116; 105; 115; 10; 32; 32; 104; 101; 114; 101; 100; 111; 99; 32; 116; 101; 120; 116; 10; 32; 32; 124; 45; 32; 69; 78; 68]) = Some [84; 104; 105; 115; 9; 105; 115; 10; 104; 101; 114; 101; 100; 111; 99; 32; 116; 101; 120; 116].
Proof. vm_compute. reflexivity. Qed.
Example TestHeredocMarginAndNewlineTrim_76 : option_map snd (heredoc (mkopts false false false false false true no_letter) [64; 40; 69; 78; 68; 41; 10; 32; 32; 124; 45; 69; 78; 68; 10]) = Some (lit "").
Proof. vm_compute. reflexivity. Qed.
Example TestHeredocInterpolate_77 : option_map snd (heredoc (mkopts false false false false false true no_letter) [64; 40; 34; 69; 78; 68; 34; 41; 10; 32; 32; 84; 104; 105; 115; 32; 105; 115; 10; 32; 32; 104; 101; 114; 101; 100; 111; 99; 32; 36; 116; 101; 120; 116; 10; 32; 32; 124; 45; 32; 69; 78; 68]) = Some (lit "(heredoc {:text (concat ""This is\nheredoc "" (str (var ""text"")))})").
Proof. vm_compute. reflexivity. Qed.
Example TestHeredocInterpolate_78 : option_map snd (heredoc (mkopts false false false false false true no_letter) [64; 40; 34; 69; 78; 68; 34; 41; 10; 32; 32; 84; 104; 105; 115; 32; 105; 115; 10; 32; 32; 104; 101; 114; 101; 100; 111; 99; 32; 36; 97; 32; 92; 36; 98; 10; 32; 32; 124; 45; 32; 69; 78; 68]) = Some (lit "(heredoc {:text (concat ""This is\nheredoc "" (str (var ""a"")) "" \\"" (str (var ""b"")))})").
Proof. vm_compute. reflexivity. Qed.
Example TestHeredocInterpolate_79 : option_map snd (heredoc (mkopts false false false false false true no_letter) [64; 40; 34; 69; 78; 68; 34; 47; 36; 41; 10; 32; 32; 84; 104; 105; 115; 32; 105; 115; 10; 32; 32; 104; 101; 114; 101; 100; 111; 99; 32; 36; 97; 32; 92; 36; 98; 10; 32; 32; 124; 45; 32; 69; 78; 68]) = Some (lit "(heredoc {:text (concat ""This is\nheredoc "" (str (var ""a"")) "" $b"")})").
Proof. vm_compute. reflexivity. Qed.
Example TestHeredocInterpolate_80 : option_map snd (heredoc (mkopts false false false false false true no_letter) [64; 40; 69; 78; 68; 41; 10; 32; 32; 84; 104; 105; 115; 32; 105; 115; 10; 32; 32; 104; 101; 114; 101; 100; 111; 99; 32; 36; 116; 101; 120; 116; 10; 32; 32; 124; 45; 32; 69; 78; 68]) = Some [84; 104; 105; 115; 32; 105; 115; 10; 104; 101; 114; 101; 100; 111; 99; 32; 36; 116; 101; 120; 116].
Proof. vm_compute. reflexivity. Qed.
Example TestHeredocInterpolate_81 : error (mkopts false false false false false true no_letter) [64; 40; 34; 69; 78; 68; 34; 34; 77; 79; 82; 69; 34; 41; 10; 32; 32; 84; 104; 105; 115; 32; 105; 115; 10; 32; 32; 104; 101; 114; 101; 100; 111; 99; 32; 36; 116; 101; 120; 116; 10; 32; 32; 124; 45; 32; 69; 78; 68] = Some (lit "more than one tag declaration in heredoc (line: 1, column: 8)").
Proof. vm_compute. reflexivity. Qed.
Example TestHeredocInterpolate_82 : error (mkopts false false false false false true no_letter) [64; 40; 34; 69; 78; 68; 10; 34; 41; 10; 32; 32; 84; 104; 105; 115; 32; 105; 115; 10; 32; 32; 104; 101; 114; 101; 100; 111; 99; 32; 36; 116; 101; 120; 116; 10; 32; 32; 124; 45; 32; 69; 78; 68] = Some (lit "unterminated @( (line: 1, column: 1)").
Proof. vm_compute. reflexivity. Qed.
Example TestHeredocInterpolate_83 : error (mkopts false false false false false true no_letter) [64; 40; 34; 34; 41; 10; 32; 32; 84; 104; 105; 115; 32; 105; 115; 10; 32; 32; 104; 101; 114; 101; 100; 111; 99; 32; 36; 116; 101; 120; 116; 10; 32; 32; 124; 45] = Some (lit "empty heredoc tag (line: 1, column: 1)").
Proof. vm_compute. reflexivity. Qed.
Example TestHeredocInterpolate_84 : error (mkopts false false false false false true no_letter) [64; 40; 41; 10; 32; 32; 84; 104; 105; 115; 32; 105; 115; 10; 32; 32; 104; 101; 114; 101; 100; 111; 99; 32; 36; 116; 101; 120; 116; 10; 32; 32; 124; 45] = Some (lit "empty heredoc tag (line: 1, column: 1)").
Proof. vm_compute. reflexivity. Qed.
Example TestHeredocNewlineEscape_85 : option_map snd (heredoc (mkopts false false false false false true no_letter) [64; 40; 69; 78; 68; 47; 76; 41; 10; 32; 32; 68; 111; 32; 110; 111; 116; 32; 98; 114; 101; 97; 107; 32; 92; 10; 32; 32; 116; 104; 105; 115; 32; 108; 105; 110; 101; 10; 32; 32; 124; 45; 32; 69; 78; 68]) = Some (lit "Do not break this line").
Proof. vm_compute. reflexivity. Qed.
Example TestHeredocNewlineEscape_86 : option_map snd (heredoc (mkopts false false false false false true no_letter) [64; 40; 69; 78; 68; 47; 76; 41; 10; 32; 32; 68; 111; 32; 110; 111; 116; 32; 98; 114; 101; 97; 107; 32; 92; 10; 32; 32; 116; 104; 105; 115; 32; 108; 105; 110; 101; 92; 10; 32; 32; 124; 45; 32; 69; 78; 68]) = Some (lit "Do not break this line\").
Proof. vm_compute. reflexivity. Qed.
Example TestHeredocNewlineEscape_87 : option_map snd (heredoc (mkopts false false false false false true no_letter) [64; 40; 69; 78; 68; 47; 116; 41; 10; 32; 32; 68; 111; 32; 98; 114; 101; 97; 107; 32; 92; 10; 32; 32; 116; 104; 105; 115; 32; 108; 105; 110; 101; 10; 32; 32; 124; 45; 32; 69; 78; 68]) = Some [68; 111; 32; 98; 114; 101; 97; 107; 32; 92; 10; 116; 104; 105; 115; 32; 108; 105; 110; 101].
Proof. vm_compute. reflexivity. Qed.
Example TestHeredocNewlineEscape_88 : option_map snd (heredoc (mkopts false false false false false true no_letter) [64; 40; 69; 78; 68; 47; 117; 41; 10; 32; 32; 65; 32; 99; 104; 101; 99; 107; 109; 97; 114; 107; 32; 92; 117; 50; 55; 49; 51; 32; 115; 121; 109; 98; 111; 108; 10; 32; 32; 124; 45; 32; 69; 78; 68]) = Some [65; 32; 99; 104; 101; 99; 107; 109; 97; 114; 107; 32; 226; 156; 147; 32; 115; 121; 109; 98; 111; 108].
Proof. vm_compute. reflexivity. Qed.
Example TestHeredocUnicodeEscape_89 : option_map snd (heredoc (mkopts false false false false false true no_letter) [64; 40; 69; 78; 68; 47; 117; 41; 10; 32; 32; 65; 32; 104; 97; 116; 32; 92; 117; 123; 49; 102; 52; 53; 50; 125; 32; 115; 121; 109; 98; 111; 108; 10; 32; 32; 124; 45; 32; 69; 78; 68]) = Some [65; 32; 104; 97; 116; 32; 240; 159; 145; 146; 32; 115; 121; 109; 98; 111; 108].
Proof. vm_compute. reflexivity. Qed.
Example TestHeredocUnicodeEscape_90 : option_map snd (heredoc (mkopts false false false false false true no_letter) [64; 40; 69; 78; 68; 47; 117; 41; 10; 32; 32; 65; 32; 99; 104; 101; 99; 107; 109; 97; 114; 107; 32; 92; 117; 50; 55; 49; 51; 32; 115; 121; 109; 98; 111; 108; 10; 32; 32; 124; 45; 32; 69; 78; 68]) = Some [65; 32; 99; 104; 101; 99; 107; 109; 97; 114; 107; 32; 226; 156; 147; 32; 115; 121; 109; 98; 111; 108].
Proof. vm_compute. reflexivity. Qed.
Example TestHeredocUnicodeEscape_91 : error (mkopts false false false false false true no_letter) [64; 40; 69; 78; 68; 47; 117; 41; 10; 32; 32; 65; 32; 104; 97; 116; 32; 92; 117; 123; 49; 102; 52; 53; 50; 32; 115; 121; 109; 98; 111; 108; 10; 32; 32; 124; 45; 32; 69; 78; 68] = Some (lit "malformed unicode escape sequence (line: 2, column: 9)").
Proof. vm_compute. reflexivity. Qed.
Example TestHeredocUnicodeEscape_92 : error (mkopts false false false false false true no_letter) [64; 40; 69; 78; 68; 47; 117; 41; 10; 32; 32; 65; 32; 104; 97; 116; 32; 92; 117; 123; 49; 102; 52; 53; 50; 51; 52; 125; 32; 115; 121; 109; 98; 111; 108; 10; 32; 32; 124; 45; 32; 69; 78; 68] = Some (lit "malformed unicode escape sequence (line: 2, column: 9)").
Proof. vm_compute. reflexivity. Qed.
Example TestHeredocUnicodeEscape_93 : error (mkopts false false false false false true no_letter) [64; 40; 69; 78; 68; 47; 117; 41; 10; 32; 32; 65; 32; 104; 97; 116; 32; 92; 117; 123; 49; 125; 32; 115; 121; 109; 98; 111; 108; 10; 32; 32; 124; 45; 32; 69; 78; 68] = Some (lit "malformed unicode escape sequence (line: 2, column: 9)").
Proof. vm_compute. reflexivity. Qed.
Example TestHeredocUnicodeEscape_94 : error (mkopts false false false false false true no_letter) [64; 40; 69; 78; 68; 47; 117; 41; 10; 32; 32; 65; 32; 99; 104; 101; 99; 107; 109; 97; 114; 107; 32; 92; 117; 50; 55; 49; 32; 115; 121; 109; 98; 111; 108; 10; 32; 32; 124; 45; 32; 69; 78; 68] = Some (lit "malformed unicode escape sequence (line: 2, column: 15)").
Proof. vm_compute. reflexivity. Qed.
Example TestHeredocUnicodeEscape_95 : error (mkopts false false false false false true no_letter) [64; 40; 69; 78; 68; 47; 117; 41; 10; 32; 32; 65; 32; 99; 104; 101; 99; 107; 109; 97; 114; 107; 32; 92; 117; 120; 50; 55; 49; 32; 115; 121; 109; 98; 111; 108; 10; 32; 32; 124; 45; 32; 69; 78; 68] = Some (lit "malformed unicode escape sequence (line: 2, column: 15)").
Proof. vm_compute. reflexivity. Qed.
Example TestMLCommentAfterHeredocTag_96 : option_map snd (heredoc (mkopts false false false false false true no_letter) [64; 40; 69; 78; 68; 41; 32; 47; 42; 32; 99; 111; 109; 109; 101; 110; 116; 32; 97; 102; 116; 101; 114; 32; 116; 97; 103; 32; 42; 47; 10; 84; 104; 105; 115; 32; 105; 115; 10; 104; 101; 114; 101; 100; 111; 99; 32; 116; 101; 120; 116; 10; 69; 78; 68]) = Some [84; 104; 105; 115; 32; 105; 115; 10; 104; 101; 114; 101; 100; 111; 99; 32; 116; 101; 120; 116; 10].
Proof. vm_compute. reflexivity. Qed.
Example TestCommentAfterHeredocTag_97 : option_map snd (heredoc (mkopts false false false false false true no_letter) [64; 40; 69; 78; 68; 41; 32; 35; 32; 99; 111; 109; 109; 101; 110; 116; 32; 97; 102; 116; 101; 114; 32; 116; 97; 103; 10; 84; 104; 105; 115; 32; 105; 115; 10; 104; 101; 114; 101; 100; 111; 99; 32; 116; 101; 120; 116; 10; 69; 78; 68]) = Some [84; 104; 105; 115; 32; 105; 115; 10; 104; 101; 114; 101; 100; 111; 99; 32; 116; 101; 120; 116; 10].
Proof. vm_compute. reflexivity. Qed.
Example TestVariable_98 : dump (mkopts false false false false false true no_letter) (lit "$var") = Some (lit "(var ""var"")").
Proof. vm_compute. reflexivity. Qed.
Example TestVariable_99 : dump (mkopts false false false false false true no_letter) (lit "$var::b") = Some (lit "(var ""var::b"")").
Proof. vm_compute. reflexivity. Qed.
Example TestVariable_100 : dump (mkopts false false false false false true no_letter) (lit "$::var::b") = Some (lit "(var ""::var::b"")").
Proof. vm_compute. reflexivity. Qed.
Example TestVariable_101 : dump (mkopts false false false false false true no_letter) (lit "$::var::_b") = Some (lit "(var ""::var::_b"")").
Proof. vm_compute. reflexivity. Qed.
Example TestVariable_102 : dump (mkopts false false false false false true no_letter) (lit "$2") = Some (lit "(var 2)").
Proof. vm_compute. reflexivity. Qed.
Example TestVariable_103 : dump (mkopts false false false false false true no_letter) (lit "$") = Some (lit "(var """")").
Proof. vm_compute. reflexivity. Qed.
Example TestVariable_104 : error (mkopts false false false false false true no_letter) (lit "$var:b") = Some (lit "unexpected token ':' (line: 1, column: 5)").
Proof. vm_compute. reflexivity. Qed.
Example TestVariable_105 : error (mkopts false false false false false true no_letter) (lit "$Var") = Some (lit "invalid variable name (line: 1, column: 2)").
Proof. vm_compute. reflexivity. Qed.
Example TestVariable_106 : error (mkopts false false false false false true no_letter) (lit "$:var::b") = Some (lit "invalid variable name (line: 1, column: 1)").
Proof. vm_compute. reflexivity. Qed.
Example TestVariable_107 : error (mkopts false false false false false true no_letter) (lit "$::var::B") = Some (lit "invalid variable name (line: 1, column: 1)").
Proof. vm_compute. reflexivity. Qed.
Example TestVariable_108 : error (mkopts false false false false false true no_letter) (lit "$::var::_b::c") = Some (lit "invalid variable name (line: 1, column: 1)").
Proof. vm_compute. reflexivity. Qed.
Example TestVariable_109 : error (mkopts false false false false false true no_letter) (lit "$::_var::b") = Some (lit "unexpected token '_' (line: 1, column: 4)").
Proof. vm_compute. reflexivity. Qed.
Example TestArray_110 : dump (mkopts false false false false false true no_letter) (lit "[1,2,3]") = Some (lit "(array 1 2 3)").
Proof. vm_compute. reflexivity. Qed.
Example TestArray_111 : dump (mkopts false false false false false true no_letter) (lit "[1,2,3,]") = Some (lit "(array 1 2 3)").
Proof. vm_compute. reflexivity. Qed.
Example TestArray_112 : dump (mkopts false false false false false true no_letter) (lit "[1,2,a=>3]") = Some (lit "(array 1 2 (hash (=> (qn ""a"") 3)))").
Proof. vm_compute. reflexivity. Qed.
Example TestArray_113 : dump (mkopts false false false false false true no_letter) (lit "[1,2,a=>3,b=>4]") = Some (lit "(array 1 2 (hash (=> (qn ""a"") 3) (=> (qn ""b"") 4)))").
Proof. vm_compute. reflexivity. Qed.
Example TestArray_114 : dump (mkopts false false false false false true no_letter) (lit "[1,2,a=>3,b=>4,5]") = Some (lit "(array 1 2 (hash (=> (qn ""a"") 3) (=> (qn ""b"") 4)) 5)").
Proof. vm_compute. reflexivity. Qed.
Example TestArray_115 : dump (mkopts false false false false false true no_letter) (lit "[1,2,{a=>3},b=>4,5]") = Some (lit "(array 1 2 (hash (=> (qn ""a"") 3)) (hash (=> (qn ""b"") 4)) 5)").
Proof. vm_compute. reflexivity. Qed.
Example TestArray_116 : error (mkopts false false false false false true no_letter) (lit "[1,2 3]") = Some (lit "expected one of ',' or ']', got 'integer literal' (line: 1, column: 6)").
Proof. vm_compute. reflexivity. Qed.
Example TestArray_117 : error (mkopts false false false false false true no_letter) (lit "[1,2,3") = Some (lit "expected one of ',' or ']', got 'EOF' (line: 1, column: 7)").
Proof. vm_compute. reflexivity. Qed.
Example TestHash_118 : dump (mkopts false false false false false true no_letter) (lit "{ a => true, b => false, c => undef, d => 12, e => 23.5, c => 'hello' }") = Some (lit "(hash (=> (qn ""a"") true) (=> (qn ""b"") false) (=> (qn ""c"") nil) (=> (qn ""d"") 12) (=> (qn ""e"") 23.5) (=> (qn ""c"") ""hello""))").
Proof. vm_compute. reflexivity. Qed.
Example TestHash_119 : dump (mkopts false false false false false true no_letter) (lit "{a => 1, b => 2,}") = Some (lit "(hash (=> (qn ""a"") 1) (=> (qn ""b"") 2))").
Proof. vm_compute. reflexivity. Qed.
Example TestHash_120 : dump (mkopts false false false false false true no_letter) (lit "{type => consumes, function => site, application => produces,}") = Some (lit "(hash (=> (qn ""type"") (qn ""consumes"")) (=> (qn ""function"") (qn ""site"")) (=> (qn ""application"") (qn ""produces"")))").
Proof. vm_compute. reflexivity. Qed.
Example TestHash_121 : error (mkopts false false false false false true no_letter) (lit "{a => 1, b, 2}") = Some (lit "expected '=>' to follow hash key (line: 1, column: 12)").
Proof. vm_compute. reflexivity. Qed.
Example TestHash_122 : error (mkopts false false false false false true no_letter) (lit "{a => 1 b => 2}") = Some (lit "expected one of ',' or '}', got 'identifier' (line: 1, column: 9)").
Proof. vm_compute. reflexivity. Qed.
Example TestHash_123 : error (mkopts false false false false false true no_letter) (lit "{a => 1, b => 2") = Some (lit "expected one of ',' or '}', got 'EOF' (line: 1, column: 16)").
Proof. vm_compute. reflexivity. Qed.
Example TestBlock_124 : block (mkopts false false false false false true no_letter) [36; 116; 32; 61; 32; 39; 116; 104; 101; 39; 10; 36; 114; 32; 61; 32; 39; 114; 101; 118; 101; 97; 108; 101; 100; 39; 10; 36; 109; 97; 112; 32; 61; 32; 123; 39; 105; 112; 108; 39; 32; 61; 62; 32; 39; 109; 101; 97; 110; 105; 110; 103; 39; 44; 32; 52; 50; 46; 48; 32; 61; 62; 32; 39; 108; 105; 102; 101; 39; 125; 10; 34; 36; 116; 32; 36; 123; 109; 97; 112; 91; 39; 105; 112; 108; 39; 93; 125; 32; 111; 102; 32; 36; 123; 109; 97; 112; 91; 52; 50; 46; 48; 93; 125; 36; 123; 91; 51; 44; 32; 34; 32; 105; 115; 32; 110; 111; 116; 32; 36; 123; 114; 125; 34; 93; 91; 49; 93; 125; 32; 104; 101; 114; 101; 34] = Some (lit "(block (= (var ""t"") ""the"") (= (var ""r"") ""revealed"") (= (var ""map"") (hash (=> ""ipl"" ""meaning"") (=> 4.2e+01 ""life""))) (concat (str (var ""t"")) "" "" (str (access (var ""map"") ""ipl"")) "" of "" (str (access (var ""map"") 4.2e+01)) (str (access (array 3 (concat "" is not "" (str (var ""r"")))) 1)) "" here""))").
Proof. vm_compute. reflexivity. Qed.
Example TestBlock_125 : block (mkopts false false false false false true no_letter) [36; 116; 32; 61; 32; 39; 116; 104; 101; 39; 59; 10; 36; 114; 32; 61; 32; 39; 114; 101; 118; 101; 97; 108; 101; 100; 39; 59; 10; 36; 109; 97; 112; 32; 61; 32; 123; 39; 105; 112; 108; 39; 32; 61; 62; 32; 39; 109; 101; 97; 110; 105; 110; 103; 39; 44; 32; 52; 50; 46; 48; 32; 61; 62; 32; 39; 108; 105; 102; 101; 39; 125; 59; 10; 34; 36; 116; 32; 36; 123; 109; 97; 112; 91; 39; 105; 112; 108; 39; 93; 125; 32; 111; 102; 32; 36; 123; 109; 97; 112; 91; 52; 50; 46; 48; 93; 125; 36; 123; 91; 51; 44; 32; 34; 32; 105; 115; 32; 110; 111; 116; 32; 36; 123; 114; 125; 34; 93; 91; 49; 93; 125; 32; 104; 101; 114; 101; 34] = Some (lit "(block (= (var ""t"") ""the"") (= (var ""r"") ""revealed"") (= (var ""map"") (hash (=> ""ipl"" ""meaning"") (=> 4.2e+01 ""life""))) (concat (str (var ""t"")) "" "" (str (access (var ""map"") ""ipl"")) "" of "" (str (access (var ""map"") 4.2e+01)) (str (access (array 3 (concat "" is not "" (str (var ""r"")))) 1)) "" here""))").
Proof. vm_compute. reflexivity. Qed.
Example TestBlock_126 : error (mkopts false false false false false true no_letter) [36; 97; 32; 61; 32; 39; 97; 39; 44; 10; 36; 98; 32; 61; 32; 39; 98; 39] = Some (lit "Extraneous comma between statements (line: 1, column: 10)").
Proof. vm_compute. reflexivity. Qed.
Example TestFunctionDefinition_127 : dump (mkopts false false false false false true no_letter) [102; 117; 110; 99; 116; 105; 111; 110; 32; 109; 121; 70; 117; 110; 99; 40; 73; 110; 116; 101; 103; 101; 114; 91; 48; 44; 51; 93; 32; 36; 102; 105; 114; 115; 116; 44; 32; 36; 117; 110; 116; 121; 112; 101; 100; 44; 32; 83; 116; 114; 105; 110; 103; 32; 36; 110; 120; 116; 32; 61; 32; 39; 104; 101; 108; 108; 111; 39; 41; 32; 62; 62; 32; 70; 108; 111; 97; 116; 32; 123; 10; 32; 32; 32; 50; 51; 46; 56; 10; 125] = Some (lit "(function {:name ""myFunc"" :params {:first {:type (access (qr ""Integer"") 0 3)} :untyped {} :nxt {:type (qr ""String"") :value ""hello""}} :body [23.8] :returns (qr ""Float"")})").
Proof. vm_compute. reflexivity. Qed.
Example TestFunctionDefinition_128 : dump (mkopts false false false false false true no_letter) [102; 117; 110; 99; 116; 105; 111; 110; 32; 109; 121; 70; 117; 110; 99; 40; 73; 110; 116; 101; 103; 101; 114; 32; 42; 36; 110; 117; 109; 98; 101; 114; 115; 41; 32; 62; 62; 32; 73; 110; 116; 101; 103; 101; 114; 32; 123; 10; 32; 32; 32; 36; 110; 117; 109; 98; 101; 114; 115; 46; 115; 105; 122; 101; 10; 125] = Some (lit "(function {:name ""myFunc"" :params {:numbers {:type (qr ""Integer"") :splat true}} :body [(call-method {:functor (. (var ""numbers"") (qn ""size"")) :args []})] :returns (qr ""Integer"")})").
Proof. vm_compute. reflexivity. Qed.
Example TestFunctionDefinition_129 : error (mkopts false false false false false true no_letter) (lit "function foo($1) {}") = Some (lit "expected variable declaration (line: 1, column: 16)").
Proof. vm_compute. reflexivity. Qed.
Example TestFunctionDefinition_130 : error (mkopts false false false false false true no_letter) [102; 117; 110; 99; 116; 105; 111; 110; 32; 109; 121; 70; 117; 110; 99; 40; 73; 110; 116; 101; 103; 101; 114; 32; 42; 110; 117; 109; 98; 101; 114; 115; 41; 32; 62; 62; 32; 73; 110; 116; 101; 103; 101; 114; 32; 123; 10; 32; 32; 32; 110; 117; 109; 98; 101; 114; 115; 46; 115; 105; 122; 101; 10; 125] = Some (lit "expected variable declaration (line: 1, column: 33)").
Proof. vm_compute. reflexivity. Qed.
Example TestFunctionDefinition_131 : error (mkopts false false false false false true no_letter) [102; 117; 110; 99; 116; 105; 111; 110; 32; 109; 121; 70; 117; 110; 99; 40; 73; 110; 116; 101; 103; 101; 114; 32; 42; 36; 110; 117; 109; 98; 101; 114; 115; 41; 32; 62; 62; 32; 36; 118; 97; 114; 32; 123; 10; 32; 32; 32; 110; 117; 109; 98; 101; 114; 115; 46; 115; 105; 122; 101; 10; 125] = Some (lit "expected type name (line: 1, column: 43)").
Proof. vm_compute. reflexivity. Qed.
Example TestFunctionDefinition_132 : error (mkopts false false false false false true no_letter) [102; 117; 110; 99; 116; 105; 111; 110; 32; 39; 109; 121; 70; 117; 110; 99; 39; 40; 41; 32; 123; 10; 32; 32; 32; 116; 114; 117; 101; 10; 125] = Some (lit "expected a name to follow keyword 'function' (line: 1, column: 10)").
Proof. vm_compute. reflexivity. Qed.
Example TestFunctionDefinition_133 : error (mkopts false false false false false true no_letter) (lit "function myFunc() true") = Some (lit "expected token '{', got 'boolean literal' (line: 1, column: 19)").
Proof. vm_compute. reflexivity. Qed.
Example TestFunctionDefinition_134 : error (mkopts false false false false false true no_letter) (lit "function myFunc() >> Boolean true") = Some (lit "expected token '{', got 'boolean literal' (line: 1, column: 30)").
Proof. vm_compute. reflexivity. Qed.
Example TestPlanDefinition_135 : dump (mkopts false false false true false true no_letter) (lit "plan foo { }") = Some (lit "(plan {:name ""foo"" :body []})").
Proof. vm_compute. reflexivity. Qed.
Example TestPlanDefinition_136 : dump (mkopts false false false true false true no_letter) [32; 112; 108; 97; 110; 32; 102; 111; 111; 32; 123; 10; 32; 32; 32; 36; 97; 32; 61; 32; 49; 48; 10; 32; 32; 32; 36; 98; 32; 61; 32; 50; 48; 10; 125] = Some (lit "(plan {:name ""foo"" :body [(= (var ""a"") 10) (= (var ""b"") 20)]})").
Proof. vm_compute. reflexivity. Qed.
Example TestPlanDefinition_137 : dump (mkopts false false false true false true no_letter) (lit "plan foo($p1 = 'yo', $p2) { }") = Some (lit "(plan {:name ""foo"" :params {:p1 {:value ""yo""} :p2 {}} :body []})").
Proof. vm_compute. reflexivity. Qed.
Example TestPlanDefinition_138 : error (mkopts false false false true false true no_letter) (lit "$a = plan") = Some (lit "expected a name to follow keyword 'plan' (line: 1, column: 10)").
Proof. vm_compute. reflexivity. Qed.
Example TestPlanDefinition_139 : dump (mkopts false false false false false true no_letter) (lit "$a = plan") = Some (lit "(= (var ""a"") (qn ""plan""))").
Proof. vm_compute. reflexivity. Qed.
Example TestWorkflowDefinition_140 : dump (mkopts false false false false true true no_letter) (lit "workflow foo { }") = Some (lit "(step {:name ""foo"" :style ""workflow""})").
Proof. vm_compute. reflexivity. Qed.
Example TestWorkflowDefinition_141 : dump (mkopts false false false false true true no_letter) [119; 111; 114; 107; 102; 108; 111; 119; 32; 102; 111; 111; 32; 123; 125; 32; 123; 10; 32; 32; 114; 101; 115; 111; 117; 114; 99; 101; 32; 98; 97; 114; 32; 123; 125; 10; 125] = Some (lit "(step {:name ""foo"" :style ""workflow"" :definition (block (step {:name ""foo::bar"" :style ""resource""}))})").
Proof. vm_compute. reflexivity. Qed.
Example TestWorkflowDefinition_142 : dump (mkopts false false false false true true no_letter) [119; 111; 114; 107; 102; 108; 111; 119; 32; 102; 111; 111; 32; 123; 125; 32; 123; 10; 32; 32; 114; 101; 115; 111; 117; 114; 99; 101; 32; 98; 97; 114; 32; 123; 10; 32; 32; 32; 32; 116; 121; 112; 101; 32; 61; 62; 32; 71; 101; 110; 101; 115; 105; 115; 58; 58; 65; 119; 115; 58; 58; 73; 110; 115; 116; 97; 110; 99; 101; 10; 32; 32; 125; 32; 123; 10; 32; 32; 32; 32; 120; 32; 61; 62; 32; 50; 44; 10; 32; 32; 32; 32; 121; 32; 61; 62; 32; 123; 10; 32; 32; 32; 32; 32; 32; 97; 32; 61; 62; 32; 39; 97; 39; 10; 32; 32; 32; 32; 125; 10; 32; 32; 125; 10; 125] = Some (lit "(step {:name ""foo"" :style ""workflow"" :definition (block (step {:name ""foo::bar"" :style ""resource"" :properties (hash (=> (qn ""type"") (qr ""Genesis::Aws::Instance""))) :definition (hash (=> (qn ""x"") 2) (=> (qn ""y"") (hash (=> (qn ""a"") ""a""))))}))})").
Proof. vm_compute. reflexivity. Qed.
Example TestWorkflowDefinition_143 : dump (mkopts false false false false true true no_letter) [119; 111; 114; 107; 102; 108; 111; 119; 32; 102; 111; 111; 32; 123; 125; 32; 123; 10; 32; 32; 114; 101; 115; 111; 117; 114; 99; 101; 32; 98; 97; 114; 32; 123; 10; 32; 32; 32; 32; 116; 121; 112; 101; 32; 61; 62; 32; 71; 101; 110; 101; 115; 105; 115; 58; 58; 65; 119; 115; 58; 58; 73; 110; 115; 116; 97; 110; 99; 101; 44; 10; 32; 32; 125; 32; 101; 97; 99; 104; 40; 36; 121; 41; 32; 124; 36; 120; 124; 32; 123; 10; 32; 32; 32; 32; 120; 32; 61; 62; 32; 36; 120; 44; 10; 32; 32; 125; 10; 125] = Some (lit "(step {:name ""foo"" :style ""workflow"" :definition (block (step {:name ""foo::bar"" :style ""resource"" :properties (hash (=> (qn ""type"") (qr ""Genesis::Aws::Instance"")) (=> (qn ""iteration"") (hash (=> (qn ""name"") (qn ""bar"")) (=> (qn ""function"") (qn ""each"")) (=> (qn ""params"") (array (param {:name ""y""}))) (=> (qn ""vars"") (array (param {:name ""x""})))))) :definition (hash (=> (qn ""x"") (call-method {:functor (. (qr ""Deferred"") (qn ""new"")) :args [""$x""]})))}))})").
Proof. vm_compute. reflexivity. Qed.
Example TestWorkflowDefinition_144 : dump (mkopts false false false false true true no_letter) [119; 111; 114; 107; 102; 108; 111; 119; 32; 102; 111; 111; 32; 123; 125; 32; 123; 10; 32; 32; 97; 99; 116; 105; 111; 110; 32; 98; 97; 114; 32; 123; 32; 103; 117; 97; 114; 100; 32; 61; 62; 32; 116; 114; 117; 101; 32; 125; 32; 123; 10; 32; 32; 32; 32; 102; 117; 110; 99; 116; 105; 111; 110; 32; 114; 101; 97; 100; 32; 123; 10; 32; 32; 32; 32; 32; 32; 116; 114; 117; 101; 10; 32; 32; 32; 32; 125; 10; 32; 32; 125; 10; 125] = Some (lit "(step {:name ""foo"" :style ""workflow"" :definition (block (step {:name ""foo::bar"" :style ""action"" :properties (hash (=> (qn ""guard"") true)) :definition (block (function {:name ""read"" :body [true]}))}))})").
Proof. vm_compute. reflexivity. Qed.
Example TestWorkflowDefinition_145 : dump (mkopts false false false false true true no_letter) [119; 111; 114; 107; 102; 108; 111; 119; 32; 102; 111; 111; 32; 123; 125; 32; 123; 10; 32; 32; 97; 99; 116; 105; 111; 110; 32; 98; 97; 114; 32; 123; 125; 32; 123; 10; 32; 32; 32; 32; 102; 117; 110; 99; 116; 105; 111; 110; 32; 100; 101; 108; 101; 116; 101; 32; 123; 10; 32; 32; 32; 32; 32; 32; 110; 111; 116; 105; 99; 101; 40; 39; 104; 101; 108; 108; 111; 32; 102; 114; 111; 109; 32; 100; 101; 108; 101; 116; 101; 39; 41; 10; 32; 32; 32; 32; 125; 10; 32; 32; 32; 32; 102; 117; 110; 99; 116; 105; 111; 110; 32; 114; 101; 97; 100; 32; 123; 10; 32; 32; 32; 32; 32; 32; 110; 111; 116; 105; 99; 101; 40; 39; 104; 101; 108; 108; 111; 32; 102; 114; 111; 109; 32; 114; 101; 97; 100; 39; 41; 10; 32; 32; 32; 32; 125; 10; 32; 32; 32; 32; 102; 117; 110; 99; 116; 105; 111; 110; 32; 117; 112; 115; 101; 114; 116; 32; 123; 10; 32; 32; 32; 32; 32; 32; 110; 111; 116; 105; 99; 101; 40; 39; 104; 101; 108; 108; 111; 32; 102; 114; 111; 109; 32; 117; 112; 115; 101; 114; 116; 39; 41; 10; 32; 32; 32; 32; 125; 10; 32; 32; 125; 10; 125] = Some (lit "(step {:name ""foo"" :style ""workflow"" :definition (block (step {:name ""foo::bar"" :style ""action"" :definition (block (function {:name ""delete"" :body [(invoke {:functor (qn ""notice"") :args [""hello from delete""]})]}) (function {:name ""read"" :body [(invoke {:functor (qn ""notice"") :args [""hello from read""]})]}) (function {:name ""upsert"" :body [(invoke {:functor (qn ""notice"") :args [""hello from upsert""]})]}))}))})").
Proof. vm_compute. reflexivity. Qed.
Example TestNodeDefinition_146 : dump (mkopts false false false false false true no_letter) [110; 111; 100; 101; 32; 100; 101; 102; 97; 117; 108; 116; 32; 123; 10; 125] = Some (lit "(node {:matches [(default)] :body []})").
Proof. vm_compute. reflexivity. Qed.
Example TestNodeDefinition_147 : dump (mkopts false false false false false true no_letter) [110; 111; 100; 101; 32; 47; 91; 97; 45; 102; 93; 46; 42; 47; 32; 123; 10; 125] = Some (lit "(node {:matches [(regexp ""[a-f].*"")] :body []})").
Proof. vm_compute. reflexivity. Qed.
Example TestNodeDefinition_148 : dump (mkopts false false false false false true no_letter) [110; 111; 100; 101; 32; 47; 91; 97; 45; 102; 93; 46; 42; 47; 44; 32; 34; 101; 120; 97; 109; 112; 108; 101; 46; 99; 111; 109; 34; 32; 123; 10; 125] = Some (lit "(node {:matches [(regexp ""[a-f].*"") ""example.com""] :body []})").
Proof. vm_compute. reflexivity. Qed.
Example TestNodeDefinition_149 : dump (mkopts false false false false false true no_letter) [110; 111; 100; 101; 32; 47; 91; 97; 45; 102; 93; 46; 42; 47; 44; 32; 101; 120; 97; 109; 112; 108; 101; 46; 99; 111; 109; 32; 123; 10; 125] = Some (lit "(node {:matches [(regexp ""[a-f].*"") ""example.com""] :body []})").
Proof. vm_compute. reflexivity. Qed.
Example TestNodeDefinition_150 : dump (mkopts false false false false false true no_letter) [110; 111; 100; 101; 32; 47; 91; 97; 45; 102; 93; 46; 42; 47; 44; 32; 49; 57; 50; 46; 49; 54; 56; 46; 48; 46; 49; 44; 32; 51; 52; 44; 32; 34; 36; 120; 46; 36; 121; 34; 32; 123; 10; 125] = Some (lit "(node {:matches [(regexp ""[a-f].*"") ""192.168.0.1"" ""34"" (concat (str (var ""x"")) ""."" (str (var ""y"")))] :body []})").
Proof. vm_compute. reflexivity. Qed.
Example TestNodeDefinition_151 : dump (mkopts false false false false false true no_letter) [110; 111; 100; 101; 32; 47; 91; 97; 45; 102; 93; 46; 42; 47; 44; 32; 49; 57; 50; 46; 49; 54; 56; 46; 48; 46; 49; 44; 32; 51; 52; 44; 32; 39; 115; 111; 109; 101; 46; 115; 116; 114; 105; 110; 103; 39; 44; 32; 123; 10; 125] = Some (lit "(node {:matches [(regexp ""[a-f].*"") ""192.168.0.1"" ""34"" ""some.string""] :body []})").
Proof. vm_compute. reflexivity. Qed.
Example TestNodeDefinition_152 : dump (mkopts false false false false false true no_letter) [110; 111; 100; 101; 32; 47; 91; 97; 45; 102; 93; 46; 42; 47; 32; 105; 110; 104; 101; 114; 105; 116; 115; 32; 49; 57; 50; 46; 49; 54; 56; 46; 48; 46; 49; 32; 123; 10; 125] = Some (lit "(node {:matches [(regexp ""[a-f].*"")] :parent ""192.168.0.1"" :body []})").
Proof. vm_compute. reflexivity. Qed.
Example TestNodeDefinition_153 : dump (mkopts false false false false false true no_letter) [110; 111; 100; 101; 32; 100; 101; 102; 97; 117; 108; 116; 32; 123; 10; 32; 32; 110; 111; 116; 105; 102; 121; 32; 123; 32; 120; 58; 32; 109; 101; 115; 115; 97; 103; 101; 32; 61; 62; 32; 39; 110; 111; 100; 101; 32; 100; 101; 102; 97; 117; 108; 116; 39; 32; 125; 10; 125] = Some (lit "(node {:matches [(default)] :body [(resource {:type (qn ""notify"") :bodies [{:title (qn ""x"") :ops [(=> ""message"" ""node default"")]}]})]})").
Proof. vm_compute. reflexivity. Qed.
Example TestNodeDefinition_154 : error (mkopts false false false false false true no_letter) [110; 111; 100; 101; 32; 91; 104; 111; 115; 116; 97; 46; 99; 111; 109; 44; 32; 104; 111; 115; 116; 98; 46; 99; 111; 109; 93; 32; 123; 10; 125] = Some (lit "hostname expected (line: 1, column: 7)").
Proof. vm_compute. reflexivity. Qed.
Example TestNodeDefinition_155 : error (mkopts false false false false false true no_letter) [110; 111; 100; 101; 32; 101; 120; 97; 109; 112; 108; 101; 46; 42; 32; 123; 10; 125] = Some (lit "expected name or number to follow '.' (line: 1, column: 15)").
Proof. vm_compute. reflexivity. Qed.
Example TestSiteDefinition_156 : dump (mkopts false false false false false true no_letter) [115; 105; 116; 101; 32; 123; 10; 125] = Some (lit "(site)").
Proof. vm_compute. reflexivity. Qed.
Example TestSiteDefinition_157 : dump (mkopts false false false false false true no_letter) [115; 105; 116; 101; 32; 123; 10; 32; 32; 110; 111; 116; 105; 102; 121; 32; 123; 32; 120; 58; 32; 109; 101; 115; 115; 97; 103; 101; 32; 61; 62; 32; 39; 110; 111; 100; 101; 32; 100; 101; 102; 97; 117; 108; 116; 39; 32; 125; 10; 125] = Some (lit "(site (resource {:type (qn ""notify"") :bodies [{:title (qn ""x"") :ops [(=> ""message"" ""node default"")]}]}))").
Proof. vm_compute. reflexivity. Qed.
Example TestTypeDefinition_158 : dump (mkopts false false false false false true no_letter) [116; 121; 112; 101; 32; 77; 121; 84; 121; 112; 101; 32; 123; 10; 32; 32; 35; 32; 87; 104; 97; 116; 32; 115; 116; 97; 116; 101; 109; 101; 110; 116; 115; 32; 116; 104; 97; 116; 32; 99; 97; 110; 32; 98; 101; 32; 105; 110; 99; 108; 117; 100; 101; 100; 32; 104; 101; 114; 101; 32; 105; 115; 32; 110; 111; 116; 32; 121; 101; 116; 32; 115; 112; 101; 99; 101; 100; 10; 125] = Some (lit "(type-definition ""MyType"" """" (block))").
Proof. vm_compute. reflexivity. Qed.
Example TestTypeDefinition_159 : dump (mkopts false false false false false true no_letter) [116; 121; 112; 101; 32; 77; 121; 84; 121; 112; 101; 32; 105; 110; 104; 101; 114; 105; 116; 115; 32; 79; 116; 104; 101; 114; 84; 121; 112; 101; 32; 123; 10; 32; 32; 35; 32; 87; 104; 97; 116; 32; 115; 116; 97; 116; 101; 109; 101; 110; 116; 115; 32; 116; 104; 97; 116; 32; 99; 97; 110; 32; 98; 101; 32; 105; 110; 99; 108; 117; 100; 101; 100; 32; 104; 101; 114; 101; 32; 105; 115; 32; 110; 111; 116; 32; 121; 101; 116; 32; 115; 112; 101; 99; 101; 100; 10; 125] = Some (lit "(type-definition ""MyType"" ""OtherType"" (block))").
Proof. vm_compute. reflexivity. Qed.
Example TestTypeDefinition_160 : error (mkopts false false false false false true no_letter) [116; 121; 112; 101; 32; 77; 121; 84; 121; 112; 101; 32; 105; 110; 104; 101; 114; 105; 116; 115; 32; 79; 116; 104; 101; 114; 84; 121; 112; 101; 32; 91; 123; 10; 32; 32; 35; 32; 87; 104; 97; 116; 32; 115; 116; 97; 116; 101; 109; 101; 110; 116; 115; 32; 116; 104; 97; 116; 32; 99; 97; 110; 32; 98; 101; 32; 105; 110; 99; 108; 117; 100; 101; 100; 32; 104; 101; 114; 101; 32; 105; 115; 32; 110; 111; 116; 32; 121; 101; 116; 32; 115; 112; 101; 99; 101; 100; 10; 125; 93] = Some (lit "expected token '{', got '[' (line: 1, column: 32)").
Proof. vm_compute. reflexivity. Qed.
Example TestTypeDefinition_161 : error (mkopts false false false false false true no_letter) [116; 121; 112; 101; 32; 77; 121; 84; 121; 112; 101; 32; 105; 110; 104; 101; 114; 105; 116; 115; 32; 36; 111; 116; 104; 101; 114; 32; 123; 10; 32; 32; 35; 32; 87; 104; 97; 116; 32; 115; 116; 97; 116; 101; 109; 101; 110; 116; 115; 32; 116; 104; 97; 116; 32; 99; 97; 110; 32; 98; 101; 32; 105; 110; 99; 108; 117; 100; 101; 100; 32; 104; 101; 114; 101; 32; 105; 115; 32; 110; 111; 116; 32; 121; 101; 116; 32; 115; 112; 101; 99; 101; 100; 10; 125] = Some (lit "expected type name to follow 'inherits' (line: 1, column: 28)").
Proof. vm_compute. reflexivity. Qed.
Example TestTypeDefinition_162 : error (mkopts false false false false false true no_letter) [116; 121; 112; 101; 32; 77; 121; 84; 121; 112; 101; 91; 97; 44; 98; 93; 32; 123; 10; 32; 32; 35; 32; 87; 104; 97; 116; 32; 115; 116; 97; 116; 101; 109; 101; 110; 116; 115; 32; 116; 104; 97; 116; 32; 99; 97; 110; 32; 98; 101; 32; 105; 110; 99; 108; 117; 100; 101; 100; 32; 104; 101; 114; 101; 32; 105; 115; 32; 110; 111; 116; 32; 121; 101; 116; 32; 115; 112; 101; 99; 101; 100; 10; 125] = Some (lit "expected type name to follow 'type' (line: 1, column: 19)").
Proof. vm_compute. reflexivity. Qed.
Example TestTypeDefinition_163 : error (mkopts false false false false false true no_letter) [116; 121; 112; 101; 32; 77; 121; 84; 121; 112; 101; 32; 60; 60; 32; 123; 10; 32; 32; 35; 32; 87; 104; 97; 116; 32; 115; 116; 97; 116; 101; 109; 101; 110; 116; 115; 32; 116; 104; 97; 116; 32; 99; 97; 110; 32; 98; 101; 32; 105; 110; 99; 108; 117; 100; 101; 100; 32; 104; 101; 114; 101; 32; 105; 115; 32; 110; 111; 116; 32; 121; 101; 116; 32; 115; 112; 101; 99; 101; 100; 10; 125] = Some (lit "unexpected token '<<' (line: 1, column: 15)").
Proof. vm_compute. reflexivity. Qed.
Example TestTypeAlias_164 : dump (mkopts false false false false false true no_letter) [116; 121; 112; 101; 32; 77; 121; 84; 121; 112; 101; 32; 61; 32; 79; 98; 106; 101; 99; 116; 91; 123; 10; 32; 32; 97; 116; 116; 114; 105; 98; 117; 116; 101; 115; 32; 61; 62; 32; 123; 10; 32; 32; 110; 97; 109; 101; 32; 61; 62; 32; 83; 116; 114; 105; 110; 103; 44; 10; 32; 32; 110; 117; 109; 98; 101; 114; 32; 61; 62; 32; 73; 110; 116; 101; 103; 101; 114; 10; 32; 32; 125; 10; 125; 93] = Some (lit "(type-alias ""MyType"" (access (qr ""Object"") (hash (=> (qn ""attributes"") (hash (=> (qn ""name"") (qr ""String"")) (=> (qn ""number"") (qr ""Integer"")))))))").
Proof. vm_compute. reflexivity. Qed.
Example TestTypeAlias_165 : error (mkopts false false false false false true no_letter) (lit "type Mod::myType[a, b] = Object[{}]") = Some (lit "invalid type name (line: 1, column: 6)").
Proof. vm_compute. reflexivity. Qed.
Example TestTypeMapping_166 : dump (mkopts false false false false false true no_letter) (lit "type Runtime[ruby, 'MyModule::MyObject'] = MyPackage::MyObject") = Some (lit "(type-mapping (access (qr ""Runtime"") (qn ""ruby"") ""MyModule::MyObject"") (qr ""MyPackage::MyObject""))").
Proof. vm_compute. reflexivity. Qed.
Example TestTypeMapping_167 : dump (mkopts false false false false false true no_letter) (lit "type Runtime[ruby, [/^MyPackage::(\w+)$/, 'MyModule::\1']] = [/^MyModule::(\w+)$/, 'MyPackage::\1']") = Some (lit "(type-mapping (access (qr ""Runtime"") (qn ""ruby"") (array (regexp ""^MyPackage::(\\w+)$"") ""MyModule::\\1"")) (array (regexp ""^MyModule::(\\w+)$"") ""MyPackage::\\1""))").
Proof. vm_compute. reflexivity. Qed.
Example TestClass_168 : dump (mkopts false false false false false true no_letter) [99; 108; 97; 115; 115; 32; 109; 121; 99; 108; 97; 115; 115; 32; 123; 10; 125] = Some (lit "(class {:name ""myclass"" :body []})").
Proof. vm_compute. reflexivity. Qed.
Example TestClass_169 : dump (mkopts false false false false false true no_letter) [99; 108; 97; 115; 115; 32; 109; 121; 99; 108; 97; 115; 115; 32; 123; 10; 32; 32; 99; 108; 97; 115; 115; 32; 105; 110; 110; 101; 114; 32; 123; 10; 32; 32; 125; 10; 125] = Some (lit "(class {:name ""myclass"" :body [(class {:name ""myclass::inner"" :body []})]})").
Proof. vm_compute. reflexivity. Qed.
Example TestClass_170 : dump (mkopts false false false false false true no_letter) [99; 108; 97; 115; 115; 32; 58; 58; 109; 121; 99; 108; 97; 115; 115; 32; 123; 10; 32; 32; 99; 108; 97; 115; 115; 32; 105; 110; 110; 101; 114; 32; 123; 10; 32; 32; 125; 10; 125] = Some (lit "(class {:name ""myclass"" :body [(class {:name ""myclass::inner"" :body []})]})").
Proof. vm_compute. reflexivity. Qed.
Example TestClass_171 : dump (mkopts false false false false false true no_letter) [99; 108; 97; 115; 115; 32; 58; 58; 109; 121; 99; 108; 97; 115; 115; 32; 123; 10; 32; 32; 99; 108; 97; 115; 115; 32; 58; 58; 105; 110; 110; 101; 114; 32; 123; 10; 32; 32; 125; 10; 125] = Some (lit "(class {:name ""myclass"" :body [(class {:name ""myclass::inner"" :body []})]})").
Proof. vm_compute. reflexivity. Qed.
Example TestClass_172 : dump (mkopts false false false false false true no_letter) [99; 108; 97; 115; 115; 32; 109; 121; 99; 108; 97; 115; 115; 32; 105; 110; 104; 101; 114; 105; 116; 115; 32; 111; 116; 104; 101; 114; 32; 123; 10; 125] = Some (lit "(class {:name ""myclass"" :parent ""other"" :body []})").
Proof. vm_compute. reflexivity. Qed.
Example TestClass_173 : dump (mkopts false false false false false true no_letter) [99; 108; 97; 115; 115; 32; 109; 121; 99; 108; 97; 115; 115; 32; 105; 110; 104; 101; 114; 105; 116; 115; 32; 100; 101; 102; 97; 117; 108; 116; 32; 123; 10; 125] = Some (lit "(class {:name ""myclass"" :parent ""default"" :body []})").
Proof. vm_compute. reflexivity. Qed.
Example TestClass_174 : dump (mkopts false false false false false true no_letter) [99; 108; 97; 115; 115; 32; 109; 121; 99; 108; 97; 115; 115; 40; 36; 97; 44; 32; 36; 98; 32; 61; 32; 50; 41; 32; 123; 10; 125] = Some (lit "(class {:name ""myclass"" :params {:a {} :b {:value 2}} :body []})").
Proof. vm_compute. reflexivity. Qed.
Example TestClass_175 : dump (mkopts false false false false false true no_letter) [99; 108; 97; 115; 115; 32; 109; 121; 99; 108; 97; 115; 115; 40; 36; 97; 44; 32; 36; 98; 32; 61; 32; 50; 41; 32; 105; 110; 104; 101; 114; 105; 116; 115; 32; 111; 116; 104; 101; 114; 32; 123; 10; 125] = Some (lit "(class {:name ""myclass"" :parent ""other"" :params {:a {} :b {:value 2}} :body []})").
Proof. vm_compute. reflexivity. Qed.
Example TestClass_176 : error (mkopts false false false false false true no_letter) [99; 108; 97; 115; 115; 32; 39; 109; 121; 99; 108; 97; 115; 115; 39; 32; 123; 10; 125] = Some (lit "a quoted string is not valid as a name at this location (line: 1, column: 7)").
Proof. vm_compute. reflexivity. Qed.
Example TestClass_177 : error (mkopts false false false false false true no_letter) [99; 108; 97; 115; 115; 32; 99; 108; 97; 115; 115; 32; 123; 10; 125] = Some (lit "'class' keyword not allowed at this location (line: 1, column: 7)").
Proof. vm_compute. reflexivity. Qed.
Example TestClass_178 : error (mkopts false false false false false true no_letter) [99; 108; 97; 115; 115; 32; 91; 97; 44; 32; 98; 93; 32; 123; 10; 125] = Some (lit "expected name of class (line: 1, column: 7)").
Proof. vm_compute. reflexivity. Qed.
Example TestDefinition_179 : dump (mkopts false false false false false true no_letter) [100; 101; 102; 105; 110; 101; 32; 97; 112; 97; 99; 104; 101; 58; 58; 118; 104; 111; 115; 116; 32; 40; 10; 32; 32; 73; 110; 116; 101; 103; 101; 114; 32; 36; 112; 111; 114; 116; 44; 10; 32; 32; 83; 116; 114; 105; 110; 103; 91; 49; 93; 32; 36; 100; 111; 99; 114; 111; 111; 116; 44; 10; 32; 32; 83; 116; 114; 105; 110; 103; 91; 49; 93; 32; 36; 115; 101; 114; 118; 101; 114; 110; 97; 109; 101; 32; 61; 32; 36; 116; 105; 116; 108; 101; 44; 10; 32; 32; 83; 116; 114; 105; 110; 103; 32; 36; 118; 104; 111; 115; 116; 95; 110; 97; 109; 101; 32; 61; 32; 39; 42; 39; 44; 10; 41; 32; 123; 10; 32; 32; 105; 110; 99; 108; 117; 100; 101; 32; 97; 112; 97; 99; 104; 101; 32; 35; 32; 99; 111; 110; 116; 97; 105; 110; 115; 32; 112; 97; 99; 107; 97; 103; 101; 91; 39; 104; 116; 116; 112; 100; 39; 93; 32; 97; 110; 100; 32; 115; 101; 114; 118; 105; 99; 101; 91; 39; 104; 116; 116; 112; 100; 39; 93; 10; 32; 32; 105; 110; 99; 108; 117; 100; 101; 32; 97; 112; 97; 99; 104; 101; 58; 58; 112; 97; 114; 97; 109; 115; 32; 35; 32; 99; 111; 110; 116; 97; 105; 110; 115; 32; 99; 111; 109; 109; 111; 110; 32; 99; 111; 110; 102; 105; 103; 32; 115; 101; 116; 116; 105; 110; 103; 115; 10; 10; 32; 32; 36; 118; 104; 111; 115; 116; 95; 100; 105; 114; 32; 61; 32; 36; 97; 112; 97; 99; 104; 101; 58; 58; 112; 97; 114; 97; 109; 115; 58; 58; 118; 104; 111; 115; 116; 95; 100; 105; 114; 10; 10; 32; 32; 35; 32; 116; 104; 101; 32; 116; 101; 109; 112; 108; 97; 116; 101; 32; 117; 115; 101; 100; 32; 98; 101; 108; 111; 119; 32; 99; 97; 110; 32; 97; 99; 99; 101; 115; 115; 32; 97; 108; 108; 32; 111; 102; 32; 116; 104; 101; 32; 112; 97; 114; 97; 109; 101; 116; 101; 114; 115; 32; 97; 110; 100; 32; 118; 97; 114; 105; 97; 98; 108; 101; 32; 102; 114; 111; 109; 32; 97; 98; 111; 118; 101; 46; 10; 32; 32; 102; 105; 108; 101; 32; 123; 32; 34; 36; 123; 118; 104; 111; 115; 116; 95; 100; 105; 114; 125; 47; 36; 123; 115; 101; 114; 118; 101; 114; 110; 97; 109; 101; 125; 46; 99; 111; 110; 102; 34; 58; 10; 32; 32; 32; 32; 101; 110; 115; 117; 114; 101; 32; 32; 61; 62; 32; 102; 105; 108; 101; 44; 10; 32; 32; 32; 32; 111; 119; 110; 101; 114; 32; 32; 32; 61; 62; 32; 39; 119; 119; 119; 39; 44; 10; 32; 32; 32; 32; 103; 114; 111; 117; 112; 32; 32; 32; 61; 62; 32; 39; 119; 119; 119; 39; 44; 10; 32; 32; 32; 32; 109; 111; 100; 101; 32; 32; 32; 32; 61; 62; 32; 39; 48; 54; 52; 52; 39; 44; 10; 32; 32; 32; 32; 99; 111; 110; 116; 101; 110; 116; 32; 61; 62; 32; 116; 101; 109; 112; 108; 97; 116; 101; 40; 39; 97; 112; 97; 99; 104; 101; 47; 118; 104; 111; 115; 116; 45; 100; 101; 102; 97; 117; 108; 116; 46; 99; 111; 110; 102; 46; 101; 114; 98; 39; 41; 44; 10; 32; 32; 32; 32; 114; 101; 113; 117; 105; 114; 101; 32; 61; 62; 32; 80; 97; 99; 107; 97; 103; 101; 91; 39; 104; 116; 116; 112; 100; 39; 93; 44; 10; 32; 32; 32; 32; 110; 111; 116; 105; 102; 121; 32; 32; 61; 62; 32; 83; 101; 114; 118; 105; 99; 101; 91; 39; 104; 116; 116; 112; 100; 39; 93; 44; 10; 32; 32; 125; 10; 125] = Some (lit "(define {:name ""apache::vhost"" :params {:port {:type (qr ""Integer"")} :docroot {:type (access (qr ""String"") 1)} :servername {:type (access (qr ""String"") 1) :value (var ""title"")} :vhost_name {:type (qr ""String"") :value ""*""}} :body [(invoke {:functor (qn ""include"") :args [(qn ""apache"")]}) (invoke {:functor (qn ""include"") :args [(qn ""apache::params"")]}) (= (var ""vhost_dir"") (var ""apache::params::vhost_dir"")) (resource {:type (qn ""file"") :bodies [{:title (concat (str (var ""vhost_dir"")) ""/"" (str (var ""servername"")) "".conf"") :ops [(=> ""ensure"" (qn ""file"")) (=> ""owner"" ""www"") (=> ""group"" ""www"") (=> ""mode"" ""0644"") (=> ""content"" (call {:functor (qn ""template"") :args [""apache/vhost-default.conf.erb""]})) (=> ""require"" (access (qr ""Package"") ""httpd"")) (=> ""notify"" (access (qr ""Service"") ""httpd""))]}]})]})").
Proof. vm_compute. reflexivity. Qed.
Example TestCapabilityMapping_180 : dump (mkopts false false false false false true no_letter) [77; 121; 67; 97; 112; 32; 112; 114; 111; 100; 117; 99; 101; 115; 32; 67; 97; 112; 32; 123; 10; 32; 32; 97; 116; 116; 114; 32; 61; 62; 32; 36; 118; 97; 108; 117; 101; 10; 125] = Some (lit "(produces (qr ""MyCap"") [""Cap"" (=> ""attr"" (var ""value""))])").
Proof. vm_compute. reflexivity. Qed.
Example TestCapabilityMapping_181 : dump (mkopts false false false false false true no_letter) (lit "attr produces Cap {}") = Some (lit "(produces (qn ""attr"") [""Cap""])").
Proof. vm_compute. reflexivity. Qed.
Example TestApplication_182 : dump (mkopts false false false false false true no_letter) [97; 112; 112; 108; 105; 99; 97; 116; 105; 111; 110; 32; 108; 97; 109; 112; 40; 10; 32; 32; 83; 116; 114; 105; 110; 103; 32; 36; 100; 98; 95; 117; 115; 101; 114; 44; 10; 32; 32; 83; 116; 114; 105; 110; 103; 32; 36; 100; 98; 95; 112; 97; 115; 115; 119; 111; 114; 100; 44; 10; 32; 32; 83; 116; 114; 105; 110; 103; 32; 36; 100; 111; 99; 114; 111; 111; 116; 32; 61; 32; 39; 47; 118; 97; 114; 47; 119; 119; 119; 47; 104; 116; 109; 108; 39; 44; 10; 41; 123; 10; 32; 32; 108; 97; 109; 112; 58; 58; 119; 101; 98; 32; 123; 32; 36; 110; 97; 109; 101; 58; 10; 32; 32; 32; 32; 100; 111; 99; 114; 111; 111; 116; 32; 61; 62; 32; 36; 100; 111; 99; 114; 111; 111; 116; 44; 10; 32; 32; 32; 32; 101; 120; 112; 111; 114; 116; 32; 61; 62; 32; 72; 116; 116; 112; 91; 34; 108; 97; 109; 112; 45; 36; 123; 110; 97; 109; 101; 125; 34; 93; 44; 10; 32; 32; 125; 10; 10; 32; 32; 108; 97; 109; 112; 58; 58; 97; 112; 112; 32; 123; 32; 36; 110; 97; 109; 101; 58; 10; 32; 32; 32; 32; 99; 111; 110; 115; 117; 109; 101; 32; 61; 62; 32; 83; 113; 108; 91; 34; 108; 97; 109; 112; 45; 36; 123; 110; 97; 109; 101; 125; 34; 93; 44; 10; 32; 32; 32; 32; 101; 120; 112; 111; 114; 116; 32; 61; 62; 32; 72; 116; 116; 112; 91; 34; 108; 97; 109; 112; 45; 36; 123; 110; 97; 109; 101; 125; 34; 93; 44; 10; 32; 32; 125; 10; 10; 32; 32; 108; 97; 109; 112; 58; 58; 100; 98; 32; 123; 32; 36; 110; 97; 109; 101; 58; 10; 32; 32; 32; 32; 100; 98; 95; 117; 115; 101; 114; 32; 32; 32; 32; 32; 61; 62; 32; 36; 100; 98; 95; 117; 115; 101; 114; 44; 10; 32; 32; 32; 32; 100; 98; 95; 110; 97; 109; 101; 32; 32; 32; 32; 32; 61; 62; 32; 36; 100; 98; 95; 110; 97; 109; 101; 44; 10; 32; 32; 32; 32; 101; 120; 112; 111; 114; 116; 32; 32; 32; 32; 32; 32; 61; 62; 32; 83; 113; 108; 91; 34; 108; 97; 109; 112; 45; 36; 123; 110; 97; 109; 101; 125; 34; 93; 44; 10; 32; 32; 125; 10; 125] = Some (lit "(application {:name ""lamp"" :params {:db_user {:type (qr ""String"")} :db_password {:type (qr ""String"")} :docroot {:type (qr ""String"") :value ""/var/www/html""}} :body [(resource {:type (qn ""lamp::web"") :bodies [{:title (var ""name"") :ops [(=> ""docroot"" (var ""docroot"")) (=> ""export"" (access (qr ""Http"") (concat ""lamp-"" (str (var ""name"")))))]}]}) (resource {:type (qn ""lamp::app"") :bodies [{:title (var ""name"") :ops [(=> ""consume"" (access (qr ""Sql"") (concat ""lamp-"" (str (var ""name""))))) (=> ""export"" (access (qr ""Http"") (concat ""lamp-"" (str (var ""name"")))))]}]}) (resource {:type (qn ""lamp::db"") :bodies [{:title (var ""name"") :ops [(=> ""db_user"" (var ""db_user"")) (=> ""db_name"" (var ""db_name"")) (=> ""export"" (access (qr ""Sql"") (concat ""lamp-"" (str (var ""name"")))))]}]})]})").
Proof. vm_compute. reflexivity. Qed.
Example TestCallNamed_183 : dump (mkopts false false false false false true no_letter) (lit "$x = wrap(myFunc(3, 'vx', 'd""x') |Integer $r| >> Integer { $r + 2 })") = Some (lit "(= (var ""x"") (call {:functor (qn ""wrap"") :args [(call {:functor (qn ""myFunc"") :args [3 ""vx"" ""d\""x""] :block (lambda {:params {:r {:type (qr ""Integer"")}} :returns (qr ""Integer"") :body [(+ (var ""r"") 2)]})})]}))").
Proof. vm_compute. reflexivity. Qed.
Example TestCallNamed_184 : dump (mkopts false false false false false true no_letter) (lit "notice hello()") = Some (lit "(invoke {:functor (qn ""notice"") :args [(call {:functor (qn ""hello"") :args []})]})").
Proof. vm_compute. reflexivity. Qed.
Example TestCallNamed_185 : dump (mkopts false false false false false true no_letter) (lit "notice hello(), 'world'") = Some (lit "(invoke {:functor (qn ""notice"") :args [(call {:functor (qn ""hello"") :args []}) ""world""]})").
Proof. vm_compute. reflexivity. Qed.
Example TestCallNamed_186 : block (mkopts false false false false false true no_letter) [36; 120; 32; 61; 32; 36; 121; 46; 109; 121; 70; 117; 110; 99; 10; 99; 97; 108; 108; 73; 116; 40; 42; 36; 120; 41; 10; 40; 50; 32; 43; 32; 51; 41; 46; 119; 105; 116; 104; 40; 41; 32; 124; 36; 120; 124; 32; 123; 32; 110; 111; 116; 105; 99; 101; 32; 36; 120; 32; 125] = Some (lit "(block (= (var ""x"") (call-method {:functor (. (var ""y"") (qn ""myFunc"")) :args []})) (invoke {:functor (qn ""callIt"") :args [(unfold (var ""x""))]}) (call-method {:functor (. (paren (+ 2 3)) (qn ""with"")) :args [] :block (lambda {:params {:x {}} :body [(invoke {:functor (qn ""notice"") :args [(var ""x"")]})]})}))").
Proof. vm_compute. reflexivity. Qed.
Example TestCallNamed_187 : error (mkopts false false false false false true no_letter) (lit "$x = myFunc(3") = Some (lit "expected one of ',' or ')', got 'EOF' (line: 1, column: 14)").
Proof. vm_compute. reflexivity. Qed.
Example TestCallNamed_188 : error (mkopts false false false false false true no_letter) (lit "$x = myFunc() || $r + 2 }") = Some (lit "expected token '{', got 'variable' (line: 1, column: 18)").
Proof. vm_compute. reflexivity. Qed.
Example TestCallNamedNoArgs_189 : dump (mkopts false false false false false true no_letter) (lit "$x = wrap(myFunc |Integer $r| >> Integer { $r + 2 })") = Some (lit "(= (var ""x"") (call {:functor (qn ""wrap"") :args [(call {:functor (qn ""myFunc"") :args [] :block (lambda {:params {:r {:type (qr ""Integer"")}} :returns (qr ""Integer"") :body [(+ (var ""r"") 2)]})})]}))").
Proof. vm_compute. reflexivity. Qed.
Example TestCallNamedNoArgs_190 : dump (mkopts false false false false false true no_letter) (lit "$x = [myFunc()]") = Some (lit "(= (var ""x"") (array (call {:functor (qn ""myFunc"") :args []})))").
Proof. vm_compute. reflexivity. Qed.
Example TestCallMethod_191 : dump (mkopts false false false false false true no_letter) (lit "$x = $y.max(23)") = Some (lit "(= (var ""x"") (call-method {:functor (. (var ""y"") (qn ""max"")) :args [23]}))").
Proof. vm_compute. reflexivity. Qed.
Example TestCallMethodArgsLambda_192 : dump (mkopts false false false false false true no_letter) (lit "$x = $y.max(23) |$x| { $x }") = Some (lit "(= (var ""x"") (call-method {:functor (. (var ""y"") (qn ""max"")) :args [23] :block (lambda {:params {:x {}} :body [(var ""x"")]})}))").
Proof. vm_compute. reflexivity. Qed.
Example TestCallMethodNoArgs_193 : dump (mkopts false false false false false true no_letter) (lit "$x = $y.max") = Some (lit "(= (var ""x"") (call-method {:functor (. (var ""y"") (qn ""max"")) :args []}))").
Proof. vm_compute. reflexivity. Qed.
Example TestCallMethodNoArgs_194 : dump (mkopts false false false false false true no_letter) (lit "$x == $y.max") = Some (lit "(== (var ""x"") (call-method {:functor (. (var ""y"") (qn ""max"")) :args []}))").
Proof. vm_compute. reflexivity. Qed.
Example TestCallMethodNoArgs_195 : dump (mkopts false false false false false true no_letter) (lit """${x[3].y}""") = Some (lit "(concat (str (call-method {:functor (. (access (var ""x"") 3) (qn ""y"")) :args []})))").
Proof. vm_compute. reflexivity. Qed.
Example TestCallMethodNoArgs_196 : dump (mkopts false false false false false true no_letter) (lit """${x[3].y.z}""") = Some (lit "(concat (str (call-method {:functor (. (call-method {:functor (. (access (var ""x"") 3) (qn ""y"")) :args []}) (qn ""z"")) :args []})))").
Proof. vm_compute. reflexivity. Qed.
Example TestCallMethodNoArgsLambda_197 : dump (mkopts false false false false false true no_letter) (lit "$x = $y.max |$x| { $x }") = Some (lit "(= (var ""x"") (call-method {:functor (. (var ""y"") (qn ""max"")) :args [] :block (lambda {:params {:x {}} :body [(var ""x"")]})}))").
Proof. vm_compute. reflexivity. Qed.
Example TestCallFuncNoArgsLambdaThenCall_198 : dump (mkopts false false false false false true no_letter) (lit "func |$x| { $x }.newfunc") = Some (lit "(call-method {:functor (. (call {:functor (qn ""func"") :args [] :block (lambda {:params {:x {}} :body [(var ""x"")]})}) (qn ""newfunc"")) :args []})").
Proof. vm_compute. reflexivity. Qed.
Example TestCallType_199 : dump (mkopts false false false false false true no_letter) (lit "$x = type(3)") = Some (lit "(= (var ""x"") (call {:functor (qn ""type"") :args [3]}))").
Proof. vm_compute. reflexivity. Qed.
Example TestCallType_200 : dump (mkopts false false false false false true no_letter) (lit "$x = [type(3)]") = Some (lit "(= (var ""x"") (array (call {:functor (qn ""type"") :args [3]})))").
Proof. vm_compute. reflexivity. Qed.
Example TestCallType_201 : dump (mkopts false false false false false true no_letter) (lit "$x = {type(3) => 'v'}") = Some (lit "(= (var ""x"") (hash (=> (call {:functor (qn ""type"") :args [3]}) ""v"")))").
Proof. vm_compute. reflexivity. Qed.
Example TestCallType_202 : dump (mkopts false false false false false true no_letter) (lit "$x = {'v' => type(3)}") = Some (lit "(= (var ""x"") (hash (=> ""v"" (call {:functor (qn ""type"") :args [3]}))))").
Proof. vm_compute. reflexivity. Qed.
Example TestCallType_203 : dump (mkopts false false false false false true no_letter) (lit "with |$x,$y=type| {}") = Some (lit "(invoke {:functor (qn ""with"") :args [] :block (lambda {:params {:x {} :y {:value (qn ""type"")}} :body []})})").
Proof. vm_compute. reflexivity. Qed.
Example TestCallTypeMethod_204 : dump (mkopts false false false false false true no_letter) (lit "$x = $x.type(3)") = Some (lit "(= (var ""x"") (call-method {:functor (. (var ""x"") (qn ""type"")) :args [3]}))").
Proof. vm_compute. reflexivity. Qed.
Example TestImplicitNewWithDot_205 : dump (mkopts false false false false false true no_letter) (lit "Foo(3).with |$f| { $f }") = Some (lit "(call-method {:functor (. (call {:functor (qr ""Foo"") :args [3]}) (qn ""with"")) :args [] :block (lambda {:params {:f {}} :body [(var ""f"")]})})").
Proof. vm_compute. reflexivity. Qed.
Example TestImplicitNewWithDotDot_206 : dump (mkopts false false false false false true no_letter) (lit "Foo(3).type_of.with |$f| { $f }") = Some (lit "(call-method {:functor (. (call-method {:functor (. (call {:functor (qr ""Foo"") :args [3]}) (qn ""type_of"")) :args []}) (qn ""with"")) :args [] :block (lambda {:params {:f {}} :body [(var ""f"")]})})").
Proof. vm_compute. reflexivity. Qed.
Example TestLineComment_207 : block (mkopts false false false false false true no_letter) [36; 120; 32; 61; 32; 39; 121; 39; 10; 35; 32; 84; 104; 101; 32; 97; 98; 111; 118; 101; 32; 105; 115; 32; 97; 32; 118; 97; 114; 105; 97; 98; 108; 101; 32; 97; 115; 115; 105; 103; 110; 109; 101; 110; 116; 10; 35; 32; 97; 110; 100; 32; 104; 101; 114; 101; 32; 105; 115; 32; 97; 32; 110; 111; 116; 105; 99; 101; 32; 111; 102; 32; 116; 104; 101; 32; 97; 115; 115; 105; 103; 110; 101; 100; 10; 35; 32; 118; 97; 108; 117; 101; 10; 35; 10; 110; 111; 116; 105; 99; 101; 40; 36; 121; 41] = Some (lit "(block (= (var ""x"") ""y"") (invoke {:functor (qn ""notice"") :args [(var ""y"")]}))").
Proof. vm_compute. reflexivity. Qed.
Example TestIdentifiers_208 : dump (mkopts false false false false false true no_letter) (lit "name") = Some (lit "(qn ""name"")").
Proof. vm_compute. reflexivity. Qed.
Example TestIdentifiers_209 : dump (mkopts false false false false false true no_letter) (lit "Name") = Some (lit "(qr ""Name"")").
Proof. vm_compute. reflexivity. Qed.
Example TestIdentifiers_210 : dump (mkopts false false false false false true no_letter) (lit "Ab::Bc") = Some (lit "(qr ""Ab::Bc"")").
Proof. vm_compute. reflexivity. Qed.
Example TestIdentifiers_211 : dump (mkopts false false false false false true no_letter) (lit "$x = ::assertType(::TheType, $y)") = Some (lit "(= (var ""x"") (call {:functor (qn ""::assertType"") :args [(qr ""::TheType"") (var ""y"")]}))").
Proof. vm_compute. reflexivity. Qed.
Example TestIdentifiers_212 : error (mkopts false false false false false true no_letter) (lit "abc:cde") = Some (lit "unexpected token ':' (line: 1, column: 4)").
Proof. vm_compute. reflexivity. Qed.
Example TestIdentifiers_213 : error (mkopts false false false false false true no_letter) (lit "Ab::bc") = Some (lit "invalid type name (line: 1, column: 1)").
Proof. vm_compute. reflexivity. Qed.
Example TestIdentifiers_214 : error (mkopts false false false false false true no_letter) (lit "$x = ::3m") = Some (lit ":: not followed by name segment (line: 1, column: 6)").
Proof. vm_compute. reflexivity. Qed.
Example TestRestOfLineComment_215 : block (mkopts false false false false false true no_letter) [36; 120; 32; 61; 32; 39; 121; 39; 32; 35; 32; 65; 32; 118; 97; 114; 105; 97; 98; 108; 101; 32; 97; 115; 115; 105; 103; 110; 109; 101; 110; 116; 10; 110; 111; 116; 105; 99; 101; 40; 36; 121; 41] = Some (lit "(block (= (var ""x"") ""y"") (invoke {:functor (qn ""notice"") :args [(var ""y"")]}))").
Proof. vm_compute. reflexivity. Qed.
Example TestRestOfLineComment_216 : block (mkopts false false false false false true no_letter) [35; 32; 91; 42; 118; 101; 114; 115; 105; 111; 110; 42; 93; 10; 35; 32; 32; 32; 84; 104; 101; 32; 112; 97; 99; 107; 97; 103; 101; 32; 118; 101; 114; 115; 105; 111; 110; 32; 116; 111; 32; 105; 110; 115; 116; 97; 108; 108; 44; 32; 117; 115; 101; 100; 32; 116; 111; 32; 115; 101; 116; 32; 116; 104; 101; 32; 112; 97; 99; 107; 97; 103; 101; 32; 110; 97; 109; 101; 46; 10; 35; 32; 32; 32; 68; 101; 102; 97; 117; 108; 116; 115; 32; 116; 111; 32; 117; 110; 100; 101; 102; 105; 110; 101; 100] = Some (lit "(block)").
Proof. vm_compute. reflexivity. Qed.
Example TestMultilineComment_217 : block (mkopts false false false false false true no_letter) [36; 120; 32; 61; 32; 39; 121; 39; 10; 47; 42; 32; 84; 104; 101; 32; 97; 98; 111; 118; 101; 32; 105; 115; 32; 97; 32; 118; 97; 114; 105; 97; 98; 108; 101; 32; 97; 115; 115; 105; 103; 110; 109; 101; 110; 116; 10; 32; 32; 32; 97; 110; 100; 32; 104; 101; 114; 101; 32; 105; 115; 32; 97; 32; 110; 111; 116; 105; 99; 101; 32; 111; 102; 32; 116; 104; 101; 32; 97; 115; 115; 105; 103; 110; 101; 100; 10; 32; 32; 32; 118; 97; 108; 117; 101; 10; 42; 47; 10; 110; 111; 116; 105; 99; 101; 40; 36; 121; 41] = Some (lit "(block (= (var ""x"") ""y"") (invoke {:functor (qn ""notice"") :args [(var ""y"")]}))").
Proof. vm_compute. reflexivity. Qed.
Example TestSingleQuote_218 : dump (mkopts false false false false false true no_letter) (lit "$x = 'a string'") = Some (lit "(= (var ""x"") ""a string"")").
Proof. vm_compute. reflexivity. Qed.
Example TestSingleQuote_219 : dump (mkopts false false false false false true no_letter) (lit "$x = 'a \'string\' with \\'") = Some (lit "(= (var ""x"") ""a 'string' with \\"")").
Proof. vm_compute. reflexivity. Qed.
Example TestSingleQuote_220 : error (mkopts false false false false false true no_letter) [36; 120; 32; 61; 32; 39; 121; 10; 110; 111; 116; 105; 99; 101; 40; 36; 120; 41] = Some (lit "unterminated single quoted string (line: 1, column: 6)").
Proof. vm_compute. reflexivity. Qed.
Example TestUnterminatedQuoteEscapedEnd_221 : error (mkopts false false false false false true no_letter) (lit "$x = 'y\") = Some (lit "unterminated single quoted string (line: 1, column: 6)").
Proof. vm_compute. reflexivity. Qed.
Example TestStrayTilde_222 : error (mkopts false false false false false true no_letter) [36; 120; 32; 126; 32; 39; 121; 39; 10; 110; 111; 116; 105; 99; 101; 40; 36; 120; 41] = Some (lit "unexpected token '~' (line: 1, column: 4)").
Proof. vm_compute. reflexivity. Qed.
Example TestUnknownToken_223 : error (mkopts false false false false false true no_letter) [36; 120; 32; 94; 32; 39; 121; 39; 10; 110; 111; 116; 105; 99; 101; 40; 36; 120; 41] = Some (lit "unexpected token '^' (line: 1, column: 4)").
Proof. vm_compute. reflexivity. Qed.
Example TestUnterminatedComment_224 : error (mkopts false false false false false true no_letter) [36; 120; 32; 61; 32; 39; 121; 39; 10; 47; 42; 32; 84; 104; 101; 32; 97; 98; 111; 118; 101; 32; 105; 115; 32; 97; 32; 118; 97; 114; 105; 97; 98; 108; 101; 32; 97; 115; 115; 105; 103; 110; 109; 101; 110; 116; 10; 110; 111; 116; 105; 99; 101; 40; 36; 121; 41] = Some (lit "unterminated /* */ comment (line: 2, column: 1)").
Proof. vm_compute. reflexivity. Qed.
Example TestIf_225 : dump (mkopts false false false false false true no_letter) [36; 120; 32; 61; 32; 105; 102; 32; 36; 121; 32; 123; 10; 32; 32; 116; 114; 117; 101; 10; 125; 32; 101; 108; 115; 101; 32; 123; 10; 32; 32; 102; 97; 108; 115; 101; 10; 125] = Some (lit "(= (var ""x"") (if {:test (var ""y"") :then [true] :else [false]}))").
Proof. vm_compute. reflexivity. Qed.
Example TestIf_226 : dump (mkopts false false false false false true no_letter) [36; 120; 32; 61; 32; 105; 102; 32; 36; 121; 32; 62; 32; 50; 32; 123; 10; 125; 32; 101; 108; 115; 101; 32; 123; 10; 32; 32; 102; 97; 108; 115; 101; 10; 125] = Some (lit "(= (var ""x"") (if {:test (> (var ""y"") 2) :then [] :else [false]}))").
Proof. vm_compute. reflexivity. Qed.
Example TestIf_227 : dump (mkopts false false false false false true no_letter) [36; 120; 32; 61; 32; 105; 102; 32; 36; 121; 32; 33; 61; 32; 51; 52; 32; 123; 10; 32; 32; 116; 114; 117; 101; 10; 125; 32; 101; 108; 115; 101; 32; 123; 10; 125] = Some (lit "(= (var ""x"") (if {:test (!= (var ""y"") 34) :then [true] :else []}))").
Proof. vm_compute. reflexivity. Qed.
Example TestIf_228 : dump (mkopts false false false false false true no_letter) [36; 120; 32; 61; 32; 105; 102; 32; 36; 121; 32; 123; 10; 32; 32; 49; 10; 125; 32; 101; 108; 115; 105; 102; 32; 36; 122; 32; 123; 10; 32; 32; 50; 10; 125; 32; 101; 108; 115; 101; 32; 123; 10; 32; 32; 51; 10; 125] = Some (lit "(= (var ""x"") (if {:test (var ""y"") :then [1] :else [(if {:test (var ""z"") :then [2] :else [3]})]}))").
Proof. vm_compute. reflexivity. Qed.
Example TestIf_229 : dump (mkopts false false false false false true no_letter) [36; 120; 32; 61; 32; 105; 102; 32; 36; 121; 32; 61; 61; 32; 105; 102; 32; 36; 120; 32; 123; 10; 32; 32; 116; 114; 117; 101; 10; 125; 32; 123; 32; 102; 97; 108; 115; 101; 32; 125] = Some (lit "(= (var ""x"") (if {:test (== (var ""y"") (if {:test (var ""x"") :then [true]})) :then [false]}))").
Proof. vm_compute. reflexivity. Qed.
Example TestIf_230 : error (mkopts false false false false false true no_letter) (lit "$x = else { 3 }") = Some (lit "unexpected token 'else' (line: 1, column: 6)").
Proof. vm_compute. reflexivity. Qed.
Example TestUnless_231 : dump (mkopts false false false false false true no_letter) [36; 120; 32; 61; 32; 117; 110; 108; 101; 115; 115; 32; 36; 121; 32; 123; 10; 32; 32; 116; 114; 117; 101; 10; 125; 32; 101; 108; 115; 101; 32; 123; 10; 32; 32; 102; 97; 108; 115; 101; 10; 125] = Some (lit "(= (var ""x"") (unless {:test (var ""y"") :then [true] :else [false]}))").
Proof. vm_compute. reflexivity. Qed.
Example TestUnless_232 : dump (mkopts false false false false false true no_letter) [36; 120; 32; 61; 32; 117; 110; 108; 101; 115; 115; 32; 36; 121; 32; 123; 10; 125; 32; 101; 108; 115; 101; 32; 123; 10; 32; 32; 102; 97; 108; 115; 101; 10; 125] = Some (lit "(= (var ""x"") (unless {:test (var ""y"") :then [] :else [false]}))").
Proof. vm_compute. reflexivity. Qed.
Example TestUnless_233 : dump (mkopts false false false false false true no_letter) [36; 120; 32; 61; 32; 117; 110; 108; 101; 115; 115; 32; 36; 121; 32; 123; 10; 32; 32; 116; 114; 117; 101; 10; 125; 32; 101; 108; 115; 101; 32; 123; 10; 125] = Some (lit "(= (var ""x"") (unless {:test (var ""y"") :then [true] :else []}))").
Proof. vm_compute. reflexivity. Qed.
Example TestUnless_234 : dump (mkopts false false false false false true no_letter) [36; 120; 32; 61; 32; 105; 102; 32; 36; 121; 32; 61; 61; 32; 117; 110; 108; 101; 115; 115; 32; 36; 120; 32; 123; 10; 32; 32; 116; 114; 117; 101; 10; 125; 32; 123; 32; 102; 97; 108; 115; 101; 32; 125] = Some (lit "(= (var ""x"") (if {:test (== (var ""y"") (unless {:test (var ""x"") :then [true]})) :then [false]}))").
Proof. vm_compute. reflexivity. Qed.
Example TestUnless_235 : error (mkopts false false false false false true no_letter) [36; 120; 32; 61; 32; 117; 110; 108; 101; 115; 115; 32; 36; 121; 32; 123; 10; 32; 32; 49; 10; 125; 32; 101; 108; 115; 105; 102; 32; 36; 122; 32; 123; 10; 32; 32; 50; 10; 125; 32; 101; 108; 115; 101; 32; 123; 10; 32; 32; 51; 10; 125] = Some (lit "elsif not supported in unless expression (line: 3, column: 8)").
Proof. vm_compute. reflexivity. Qed.
Example TestSelector_236 : dump (mkopts false false false false false true no_letter) (lit "$rootgroup = $facts['os']['family'] ? 'Solaris' => 'wheel'") = Some (lit "(= (var ""rootgroup"") (? (access (access (var ""facts"") ""os"") ""family"") [(=> ""Solaris"" ""wheel"")]))").
Proof. vm_compute. reflexivity. Qed.
Example TestSelector_237 : dump (mkopts false false false false false true no_letter) [36; 114; 111; 111; 116; 103; 114; 111; 117; 112; 32; 61; 32; 36; 102; 97; 99; 116; 115; 91; 39; 111; 115; 39; 93; 91; 39; 102; 97; 109; 105; 108; 121; 39; 93; 32; 63; 32; 123; 10; 32; 32; 39; 83; 111; 108; 97; 114; 105; 115; 39; 32; 32; 32; 32; 32; 32; 32; 32; 32; 32; 61; 62; 32; 39; 119; 104; 101; 101; 108; 39; 44; 10; 32; 32; 47; 40; 68; 97; 114; 119; 105; 110; 124; 70; 114; 101; 101; 66; 83; 68; 41; 47; 32; 61; 62; 32; 39; 119; 104; 101; 101; 108; 39; 44; 10; 32; 32; 100; 101; 102; 97; 117; 108; 116; 32; 32; 32; 32; 32; 32; 32; 32; 32; 32; 32; 32; 61; 62; 32; 39; 114; 111; 111; 116; 39; 10; 125] = Some (lit "(= (var ""rootgroup"") (? (access (access (var ""facts"") ""os"") ""family"") [(=> ""Solaris"" ""wheel"") (=> (regexp ""(Darwin|FreeBSD)"") ""wheel"") (=> (default) ""root"")]))").
Proof. vm_compute. reflexivity. Qed.
Example TestSelector_238 : dump (mkopts false false false false false true no_letter) [36; 114; 111; 111; 116; 103; 114; 111; 117; 112; 32; 61; 32; 36; 102; 97; 99; 116; 115; 91; 39; 111; 115; 39; 93; 91; 39; 102; 97; 109; 105; 108; 121; 39; 93; 32; 63; 32; 123; 10; 32; 32; 39; 83; 111; 108; 97; 114; 105; 115; 39; 32; 32; 32; 32; 32; 32; 32; 32; 32; 32; 61; 62; 32; 39; 119; 104; 101; 101; 108; 39; 44; 10; 32; 32; 47; 40; 68; 97; 114; 119; 105; 110; 124; 70; 114; 101; 101; 66; 83; 68; 41; 47; 32; 61; 62; 32; 39; 119; 104; 101; 101; 108; 39; 44; 10; 32; 32; 100; 101; 102; 97; 117; 108; 116; 32; 32; 32; 32; 32; 32; 32; 32; 32; 32; 32; 32; 61; 62; 32; 39; 114; 111; 111; 116; 39; 44; 10; 125] = Some (lit "(= (var ""rootgroup"") (? (access (access (var ""facts"") ""os"") ""family"") [(=> ""Solaris"" ""wheel"") (=> (regexp ""(Darwin|FreeBSD)"") ""wheel"") (=> (default) ""root"")]))").
Proof. vm_compute. reflexivity. Qed.
Example TestCase_239 : dump (mkopts false false false false false true no_letter) [99; 97; 115; 101; 32; 36; 102; 97; 99; 116; 115; 91; 39; 111; 115; 39; 93; 91; 39; 110; 97; 109; 101; 39; 93; 32; 123; 10; 32; 32; 39; 83; 111; 108; 97; 114; 105; 115; 39; 58; 32; 32; 32; 32; 32; 32; 32; 32; 32; 32; 32; 123; 32; 105; 110; 99; 108; 117; 100; 101; 32; 114; 111; 108; 101; 58; 58; 115; 111; 108; 97; 114; 105; 115; 32; 125; 32; 35; 32; 65; 112; 112; 108; 121; 32; 116; 104; 101; 32; 115; 111; 108; 97; 114; 105; 115; 32; 99; 108; 97; 115; 115; 10; 32; 32; 39; 82; 101; 100; 72; 97; 116; 39; 44; 32; 39; 67; 101; 110; 116; 79; 83; 39; 58; 32; 32; 123; 32; 105; 110; 99; 108; 117; 100; 101; 32; 114; 111; 108; 101; 58; 58; 114; 101; 100; 104; 97; 116; 32; 32; 125; 32; 35; 32; 65; 112; 112; 108; 121; 32; 116; 104; 101; 32; 114; 101; 100; 104; 97; 116; 32; 99; 108; 97; 115; 115; 10; 32; 32; 47; 94; 40; 68; 101; 98; 105; 97; 110; 124; 85; 98; 117; 110; 116; 117; 41; 36; 47; 58; 32; 123; 32; 105; 110; 99; 108; 117; 100; 101; 32; 114; 111; 108; 101; 58; 58; 100; 101; 98; 105; 97; 110; 32; 32; 125; 32; 35; 32; 65; 112; 112; 108; 121; 32; 116; 104; 101; 32; 100; 101; 98; 105; 97; 110; 32; 99; 108; 97; 115; 115; 10; 32; 32; 100; 101; 102; 97; 117; 108; 116; 58; 32; 32; 32; 32; 32; 32; 32; 32; 32; 32; 32; 32; 32; 123; 32; 105; 110; 99; 108; 117; 100; 101; 32; 114; 111; 108; 101; 58; 58; 103; 101; 110; 101; 114; 105; 99; 32; 125; 32; 35; 32; 65; 112; 112; 108; 121; 32; 116; 104; 101; 32; 103; 101; 110; 101; 114; 105; 99; 32; 99; 108; 97; 115; 115; 10; 125] = Some (lit "(case (access (access (var ""facts"") ""os"") ""name"") [{:when [""Solaris""] :then [(invoke {:functor (qn ""include"") :args [(qn ""role::solaris"")]})]} {:when [""RedHat"" ""CentOS""] :then [(invoke {:functor (qn ""include"") :args [(qn ""role::redhat"")]})]} {:when [(regexp ""^(Debian|Ubuntu)$"")] :then [(invoke {:functor (qn ""include"") :args [(qn ""role::debian"")]})]} {:when [(default)] :then [(invoke {:functor (qn ""include"") :args [(qn ""role::generic"")]})]}])").
Proof. vm_compute. reflexivity. Qed.
Example TestAccess_240 : dump (mkopts false false false false false true no_letter) [83; 116; 114; 117; 99; 116; 91; 123; 10; 32; 32; 79; 112; 116; 105; 111; 110; 97; 108; 91; 100; 101; 115; 99; 114; 105; 112; 116; 105; 111; 110; 93; 32; 61; 62; 32; 83; 116; 114; 105; 110; 103; 44; 10; 32; 32; 79; 112; 116; 105; 111; 110; 97; 108; 91; 115; 101; 110; 115; 105; 116; 105; 118; 101; 93; 32; 61; 62; 32; 66; 111; 111; 108; 101; 97; 110; 44; 10; 32; 32; 116; 121; 112; 101; 32; 61; 62; 32; 84; 121; 112; 101; 125; 93] = Some (lit "(access (qr ""Struct"") (hash (=> (access (qr ""Optional"") (qn ""description"")) (qr ""String"")) (=> (access (qr ""Optional"") (qn ""sensitive"")) (qr ""Boolean"")) (=> (qn ""type"") (qr ""Type""))))").
Proof. vm_compute. reflexivity. Qed.
Example TestAccess_241 : dump (mkopts false false false false false true no_letter) [83; 116; 114; 117; 99; 116; 91; 10; 32; 32; 79; 112; 116; 105; 111; 110; 97; 108; 91; 100; 101; 115; 99; 114; 105; 112; 116; 105; 111; 110; 93; 32; 61; 62; 32; 83; 116; 114; 105; 110; 103; 44; 10; 32; 32; 79; 112; 116; 105; 111; 110; 97; 108; 91; 115; 101; 110; 115; 105; 116; 105; 118; 101; 93; 32; 61; 62; 32; 66; 111; 111; 108; 101; 97; 110; 44; 10; 32; 32; 116; 121; 112; 101; 32; 61; 62; 32; 84; 121; 112; 101; 93] = Some (lit "(access (qr ""Struct"") (hash (=> (access (qr ""Optional"") (qn ""description"")) (qr ""String"")) (=> (access (qr ""Optional"") (qn ""sensitive"")) (qr ""Boolean"")) (=> (qn ""type"") (qr ""Type""))))").
Proof. vm_compute. reflexivity. Qed.
Example TestResource_242 : dump (mkopts false false false false false true no_letter) [102; 105; 108; 101; 32; 123; 32; 39; 47; 116; 109; 112; 47; 102; 111; 111; 39; 58; 10; 32; 32; 109; 111; 100; 101; 32; 61; 62; 32; 39; 48; 54; 52; 48; 39; 44; 10; 32; 32; 101; 110; 115; 117; 114; 101; 32; 61; 62; 32; 112; 114; 101; 115; 101; 110; 116; 10; 125] = Some (lit "(resource {:type (qn ""file"") :bodies [{:title ""/tmp/foo"" :ops [(=> ""mode"" ""0640"") (=> ""ensure"" (qn ""present""))]}]})").
Proof. vm_compute. reflexivity. Qed.
Example TestResource_243 : dump (mkopts false false false false false true no_letter) [102; 105; 108; 101; 32; 123; 32; 39; 47; 116; 109; 112; 47; 102; 111; 111; 39; 58; 10; 32; 32; 101; 110; 115; 117; 114; 101; 32; 61; 62; 32; 102; 105; 108; 101; 44; 10; 32; 32; 42; 32; 61; 62; 32; 36; 102; 105; 108; 101; 95; 111; 119; 110; 101; 114; 115; 104; 105; 112; 10; 125] = Some (lit "(resource {:type (qn ""file"") :bodies [{:title ""/tmp/foo"" :ops [(=> ""ensure"" (qn ""file"")) (splat-hash (var ""file_ownership""))]}]})").
Proof. vm_compute. reflexivity. Qed.
Example TestResource_244 : dump (mkopts false false false false false true no_letter) [64; 102; 105; 108; 101; 32; 123; 32; 39; 47; 116; 109; 112; 47; 102; 111; 111; 39; 58; 10; 32; 32; 109; 111; 100; 101; 32; 61; 62; 32; 39; 48; 54; 52; 48; 39; 44; 10; 32; 32; 101; 110; 115; 117; 114; 101; 32; 61; 62; 32; 112; 114; 101; 115; 101; 110; 116; 10; 125] = Some (lit "(resource {:type (qn ""file"") :bodies [{:title ""/tmp/foo"" :ops [(=> ""mode"" ""0640"") (=> ""ensure"" (qn ""present""))]}] :form ""virtual""})").
Proof. vm_compute. reflexivity. Qed.
Example TestResource_245 : dump (mkopts false false false false false true no_letter) [64; 64; 102; 105; 108; 101; 32; 123; 32; 39; 47; 116; 109; 112; 47; 102; 111; 111; 39; 58; 10; 32; 32; 109; 111; 100; 101; 32; 61; 62; 32; 39; 48; 54; 52; 48; 39; 44; 10; 32; 32; 101; 110; 115; 117; 114; 101; 32; 61; 62; 32; 112; 114; 101; 115; 101; 110; 116; 10; 125] = Some (lit "(resource {:type (qn ""file"") :bodies [{:title ""/tmp/foo"" :ops [(=> ""mode"" ""0640"") (=> ""ensure"" (qn ""present""))]}] :form ""exported""})").
Proof. vm_compute. reflexivity. Qed.
Example TestResource_246 : dump (mkopts false false false false false true no_letter) (lit "class { some_title: }") = Some (lit "(resource {:type (qn ""class"") :bodies [{:title (qn ""some_title"") :ops []}]})").
Proof. vm_compute. reflexivity. Qed.
Example TestResource_247 : dump (mkopts false false false false false true no_letter) (lit "file { '/tmp/foo': }") = Some (lit "(resource {:type (qn ""file"") :bodies [{:title ""/tmp/foo"" :ops []}]})").
Proof. vm_compute. reflexivity. Qed.
Example TestResource_248 : dump (mkopts false false false false false true no_letter) [112; 97; 99; 107; 97; 103; 101; 32; 123; 32; 39; 111; 112; 101; 110; 115; 115; 104; 45; 115; 101; 114; 118; 101; 114; 39; 58; 10; 32; 32; 101; 110; 115; 117; 114; 101; 32; 61; 62; 32; 112; 114; 101; 115; 101; 110; 116; 44; 10; 125; 32; 45; 62; 32; 35; 32; 97; 110; 100; 32; 116; 104; 101; 110; 58; 10; 102; 105; 108; 101; 32; 123; 32; 39; 47; 101; 116; 99; 47; 115; 115; 104; 47; 115; 115; 104; 100; 95; 99; 111; 110; 102; 105; 103; 39; 58; 10; 32; 32; 101; 110; 115; 117; 114; 101; 32; 61; 62; 32; 102; 105; 108; 101; 44; 10; 32; 32; 109; 111; 100; 101; 32; 32; 32; 61; 62; 32; 39; 48; 54; 48; 48; 39; 44; 10; 32; 32; 115; 111; 117; 114; 99; 101; 32; 61; 62; 32; 39; 112; 117; 112; 112; 101; 116; 58; 47; 47; 47; 109; 111; 100; 117; 108; 101; 115; 47; 115; 115; 104; 100; 47; 115; 115; 104; 100; 95; 99; 111; 110; 102; 105; 103; 39; 44; 10; 125; 32; 126; 62; 32; 35; 32; 97; 110; 100; 32; 116; 104; 101; 110; 58; 10; 115; 101; 114; 118; 105; 99; 101; 32; 123; 32; 39; 115; 115; 104; 100; 39; 58; 10; 32; 32; 101; 110; 115; 117; 114; 101; 32; 61; 62; 32; 114; 117; 110; 110; 105; 110; 103; 44; 10; 32; 32; 101; 110; 97; 98; 108; 101; 32; 61; 62; 32; 116; 114; 117; 101; 44; 10; 125] = Some (lit "(~> (-> (resource {:type (qn ""package"") :bodies [{:title ""openssh-server"" :ops [(=> ""ensure"" (qn ""present""))]}]}) (resource {:type (qn ""file"") :bodies [{:title ""/etc/ssh/sshd_config"" :ops [(=> ""ensure"" (qn ""file"")) (=> ""mode"" ""0600"") (=> ""source"" ""puppet:///modules/sshd/sshd_config"")]}]})) (resource {:type (qn ""service"") :bodies [{:title ""sshd"" :ops [(=> ""ensure"" (qn ""running"")) (=> ""enable"" true)]}]}))").
Proof. vm_compute. reflexivity. Qed.
Example TestResource_249 : dump (mkopts false false false false false true no_letter) [112; 97; 99; 107; 97; 103; 101; 32; 123; 32; 39; 111; 112; 101; 110; 115; 115; 104; 45; 115; 101; 114; 118; 101; 114; 39; 58; 10; 32; 32; 101; 110; 115; 117; 114; 101; 32; 61; 62; 32; 112; 114; 101; 115; 101; 110; 116; 44; 10; 125; 32; 60; 45; 32; 35; 32; 97; 110; 100; 32; 116; 104; 101; 110; 58; 10; 102; 105; 108; 101; 32; 123; 32; 39; 47; 101; 116; 99; 47; 115; 115; 104; 47; 115; 115; 104; 100; 95; 99; 111; 110; 102; 105; 103; 39; 58; 10; 32; 32; 101; 110; 115; 117; 114; 101; 32; 61; 62; 32; 102; 105; 108; 101; 44; 10; 32; 32; 109; 111; 100; 101; 32; 32; 32; 61; 62; 32; 39; 48; 54; 48; 48; 39; 44; 10; 32; 32; 115; 111; 117; 114; 99; 101; 32; 61; 62; 32; 39; 112; 117; 112; 112; 101; 116; 58; 47; 47; 47; 109; 111; 100; 117; 108; 101; 115; 47; 115; 115; 104; 100; 47; 115; 115; 104; 100; 95; 99; 111; 110; 102; 105; 103; 39; 44; 10; 125; 32; 60; 126; 32; 35; 32; 97; 110; 100; 32; 116; 104; 101; 110; 58; 10; 115; 101; 114; 118; 105; 99; 101; 32; 123; 32; 39; 115; 115; 104; 100; 39; 58; 10; 32; 32; 101; 110; 115; 117; 114; 101; 32; 61; 62; 32; 114; 117; 110; 110; 105; 110; 103; 44; 10; 32; 32; 101; 110; 97; 98; 108; 101; 32; 61; 62; 32; 116; 114; 117; 101; 44; 10; 125] = Some (lit "(<~ (<- (resource {:type (qn ""package"") :bodies [{:title ""openssh-server"" :ops [(=> ""ensure"" (qn ""present""))]}]}) (resource {:type (qn ""file"") :bodies [{:title ""/etc/ssh/sshd_config"" :ops [(=> ""ensure"" (qn ""file"")) (=> ""mode"" ""0600"") (=> ""source"" ""puppet:///modules/sshd/sshd_config"")]}]})) (resource {:type (qn ""service"") :bodies [{:title ""sshd"" :ops [(=> ""ensure"" (qn ""running"")) (=> ""enable"" true)]}]}))").
Proof. vm_compute. reflexivity. Qed.
Example TestResource_250 : error (mkopts false false false false false true no_letter) [102; 105; 108; 101; 32; 123; 32; 39; 47; 116; 109; 112; 47; 102; 111; 111; 39; 58; 10; 32; 32; 109; 111; 100; 101; 32; 61; 62; 32; 39; 48; 54; 52; 48; 39; 44; 10; 32; 32; 101; 110; 115; 117; 114; 101; 32; 61; 62; 32; 112; 114; 101; 115; 101; 110; 116; 10] = Some (lit "expected token '}', got 'EOF' (line: 4, column: 1)").
Proof. vm_compute. reflexivity. Qed.
Example TestResource_251 : error (mkopts false false false false false true no_letter) [102; 105; 108; 101; 32; 123; 32; 39; 47; 116; 109; 112; 47; 102; 111; 111; 39; 58; 10; 32; 32; 109; 111; 100; 101; 44; 32; 39; 48; 54; 52; 48; 39; 44; 10; 32; 32; 101; 110; 115; 117; 114; 101; 44; 32; 112; 114; 101; 115; 101; 110; 116; 10; 125] = Some (lit "invalid attribute operation (line: 2, column: 8)").
Proof. vm_compute. reflexivity. Qed.
Example TestResource_252 : error (mkopts false false false false false true no_letter) [102; 105; 108; 101; 32; 123; 32; 39; 47; 116; 109; 112; 47; 102; 111; 111; 39; 58; 10; 32; 32; 39; 109; 111; 100; 101; 39; 32; 61; 62; 32; 39; 48; 54; 52; 48; 39; 44; 10; 32; 32; 39; 101; 110; 115; 117; 114; 101; 39; 32; 61; 62; 32; 112; 114; 101; 115; 101; 110; 116; 10; 125] = Some (lit "expected attribute name (line: 2, column: 3)").
Proof. vm_compute. reflexivity. Qed.
Example TestMultipleBodies_253 : dump (mkopts false false false false false true no_letter) [102; 105; 108; 101; 32; 123; 32; 39; 47; 116; 109; 112; 47; 102; 111; 111; 39; 58; 10; 32; 32; 109; 111; 100; 101; 32; 61; 62; 32; 39; 48; 54; 52; 48; 39; 44; 10; 32; 32; 101; 110; 115; 117; 114; 101; 32; 61; 62; 32; 112; 114; 101; 115; 101; 110; 116; 59; 10; 39; 47; 116; 109; 112; 47; 98; 97; 114; 39; 58; 10; 32; 32; 109; 111; 100; 101; 32; 61; 62; 32; 39; 48; 54; 52; 48; 39; 44; 10; 32; 32; 101; 110; 115; 117; 114; 101; 32; 61; 62; 32; 112; 114; 101; 115; 101; 110; 116; 59; 10; 125] = Some (lit "(resource {:type (qn ""file"") :bodies [{:title ""/tmp/foo"" :ops [(=> ""mode"" ""0640"") (=> ""ensure"" (qn ""present""))]} {:title ""/tmp/bar"" :ops [(=> ""mode"" ""0640"") (=> ""ensure"" (qn ""present""))]}]})").
Proof. vm_compute. reflexivity. Qed.
Example TestMultipleBodies_254 : error (mkopts false false false false false true no_letter) [102; 105; 108; 101; 32; 123; 32; 39; 47; 116; 109; 112; 47; 102; 111; 111; 39; 58; 10; 32; 32; 109; 111; 100; 101; 32; 61; 62; 32; 39; 48; 54; 52; 48; 39; 44; 10; 32; 32; 101; 110; 115; 117; 114; 101; 32; 61; 62; 32; 112; 114; 101; 115; 101; 110; 116; 59; 10; 39; 47; 116; 109; 112; 47; 98; 97; 114; 39; 10; 32; 32; 109; 111; 100; 101; 32; 61; 62; 32; 39; 48; 54; 52; 48; 39; 44; 10; 32; 32; 101; 110; 115; 117; 114; 101; 32; 61; 62; 32; 112; 114; 101; 115; 101; 110; 116; 59; 10; 125] = Some (lit "resource title expected (line: 4, column: 1)").
Proof. vm_compute. reflexivity. Qed.
Example TestStatmentCallWithUnparameterizedHash_255 : dump (mkopts false false false false false true no_letter) (lit "warning { message => 'syntax ok' }") = Some (lit "(invoke {:functor (qn ""warning"") :args [(hash (=> (qn ""message"") ""syntax ok""))]})").
Proof. vm_compute. reflexivity. Qed.
Example TestNonStatmentCallWithUnparameterizedHash_256 : error (mkopts false false false false false true no_letter) (lit "something { message => 'syntax ok' }") = Some (lit "This expression is invalid. Did you try declaring a 'something' resource without a title? (line: 1, column: 1)").
Proof. vm_compute. reflexivity. Qed.
Example TestResourceDefaults_257 : dump (mkopts false false false false false true no_letter) (lit "Something { message => 'syntax ok' }") = Some (lit "(resource-defaults {:type (qr ""Something"") :ops [(=> ""message"" ""syntax ok"")]})").
Proof. vm_compute. reflexivity. Qed.
Example TestResourceDefaultsFromAccess_258 : dump (mkopts false false false false false true no_letter) (lit "Resource[Something] { message => 'syntax ok' }") = Some (lit "(resource-defaults {:type (access (qr ""Resource"") (qr ""Something"")) :ops [(=> ""message"" ""syntax ok"")]})").
Proof. vm_compute. reflexivity. Qed.
Example TestResourceDefaultsFromAccess_259 : dump (mkopts false false false false false true no_letter) (lit "@Resource[Something] { message => 'syntax ok' }") = Some (lit "(resource-defaults {:type (access (qr ""Resource"") (qr ""Something"")) :ops [(=> ""message"" ""syntax ok"")] :form ""virtual""})").
Proof. vm_compute. reflexivity. Qed.
Example TestResourceOverride_260 : dump (mkopts false false false false false true no_letter) (lit "File['/tmp/foo.txt'] { mode => '0644' }") = Some (lit "(resource-override {:resources (access (qr ""File"") ""/tmp/foo.txt"") :ops [(=> ""mode"" ""0644"")]})").
Proof. vm_compute. reflexivity. Qed.
Example TestResourceOverride_261 : dump (mkopts false false false false false true no_letter) [83; 101; 114; 118; 105; 99; 101; 91; 39; 97; 112; 97; 99; 104; 101; 39; 93; 32; 123; 10; 32; 32; 114; 101; 113; 117; 105; 114; 101; 32; 43; 62; 32; 91; 70; 105; 108; 101; 91; 39; 97; 112; 97; 99; 104; 101; 46; 112; 101; 109; 39; 93; 44; 32; 70; 105; 108; 101; 91; 39; 104; 116; 116; 112; 100; 46; 99; 111; 110; 102; 39; 93; 93; 10; 125] = Some (lit "(resource-override {:resources (access (qr ""Service"") ""apache"") :ops [(+> ""require"" (array (access (qr ""File"") ""apache.pem"") (access (qr ""File"") ""httpd.conf"")))]})").
Proof. vm_compute. reflexivity. Qed.
Example TestResourceOverride_262 : dump (mkopts false false false false false true no_letter) (lit "@File['/tmp/foo.txt'] { mode => '0644' }") = Some (lit "(resource-override {:resources (access (qr ""File"") ""/tmp/foo.txt"") :ops [(=> ""mode"" ""0644"")] :form ""virtual""})").
Proof. vm_compute. reflexivity. Qed.
Example TestInvalidResource_263 : error (mkopts false false false false false true no_letter) (lit "'File' { mode => '0644' }") = Some (lit "invalid resource expression (line: 1, column: 1)").
Proof. vm_compute. reflexivity. Qed.
Example TestVirtualResourceCollector_264 : dump (mkopts false false false false false true no_letter) (lit "File <| |>") = Some (lit "(collect {:type (qr ""File"") :query (virtual-query)})").
Proof. vm_compute. reflexivity. Qed.
Example TestVirtualResourceCollector_265 : dump (mkopts false false false false false true no_letter) (lit "File <| mode == '0644' |>") = Some (lit "(collect {:type (qr ""File"") :query (virtual-query (== (qn ""mode"") ""0644""))})").
Proof. vm_compute. reflexivity. Qed.
Example TestVirtualResourceCollector_266 : dump (mkopts false false false false false true no_letter) [70; 105; 108; 101; 32; 60; 124; 32; 109; 111; 100; 101; 32; 61; 61; 32; 39; 48; 54; 52; 52; 39; 32; 124; 62; 32; 123; 10; 32; 32; 111; 119; 110; 101; 114; 32; 61; 62; 32; 39; 114; 111; 111; 116; 39; 44; 10; 32; 32; 109; 111; 100; 101; 32; 61; 62; 32; 54; 52; 48; 10; 125] = Some (lit "(collect {:type (qr ""File"") :query (virtual-query (== (qn ""mode"") ""0644"")) :ops [(=> ""owner"" ""root"") (=> ""mode"" 640)]})").
Proof. vm_compute. reflexivity. Qed.
Example TestExportedResourceCollector_267 : dump (mkopts false false false false false true no_letter) (lit "File <<| |>>") = Some (lit "(collect {:type (qr ""File"") :query (exported-query)})").
Proof. vm_compute. reflexivity. Qed.
Example TestExportedResourceCollector_268 : dump (mkopts false false false false false true no_letter) (lit "File <<| mode == '0644' |>>") = Some (lit "(collect {:type (qr ""File"") :query (exported-query (== (qn ""mode"") ""0644""))})").
Proof. vm_compute. reflexivity. Qed.
Example TestExportedResourceCollector_269 : dump (mkopts false false false false false true no_letter) [70; 105; 108; 101; 32; 60; 60; 124; 32; 109; 111; 100; 101; 32; 61; 61; 32; 39; 48; 54; 52; 52; 39; 32; 124; 62; 62; 32; 123; 10; 32; 32; 111; 119; 110; 101; 114; 32; 61; 62; 32; 39; 114; 111; 111; 116; 39; 44; 10; 32; 32; 109; 111; 100; 101; 32; 61; 62; 32; 54; 52; 48; 10; 125] = Some (lit "(collect {:type (qr ""File"") :query (exported-query (== (qn ""mode"") ""0644"")) :ops [(=> ""owner"" ""root"") (=> ""mode"" 640)]})").
Proof. vm_compute. reflexivity. Qed.
Example TestOperators_270 : dump (mkopts false false false false false true no_letter) (lit "$x = a or b and c < d == e << f + g * -h") = Some (lit "(= (var ""x"") (or (qn ""a"") (and (qn ""b"") (< (qn ""c"") (== (qn ""d"") (<< (qn ""e"") (+ (qn ""f"") (* (qn ""g"") (- (qn ""h""))))))))))").
Proof. vm_compute. reflexivity. Qed.
Example TestOperators_271 : dump (mkopts false false false false false true no_letter) (lit "$x = -h / g + f << e == d <= c and b or a") = Some (lit "(= (var ""x"") (or (and (<= (== (<< (+ (/ (- (qn ""h"")) (qn ""g"")) (qn ""f"")) (qn ""e"")) (qn ""d"")) (qn ""c"")) (qn ""b"")) (qn ""a"")))").
Proof. vm_compute. reflexivity. Qed.
Example TestOperators_272 : dump (mkopts false false false false false true no_letter) (lit "$x = !a == b") = Some (lit "(= (var ""x"") (== (! (qn ""a"")) (qn ""b"")))").
Proof. vm_compute. reflexivity. Qed.
Example TestOperators_273 : dump (mkopts false false false false false true no_letter) (lit "$x = a > b") = Some (lit "(= (var ""x"") (> (qn ""a"") (qn ""b"")))").
Proof. vm_compute. reflexivity. Qed.
Example TestOperators_274 : dump (mkopts false false false false false true no_letter) (lit "$x = a >= b") = Some (lit "(= (var ""x"") (>= (qn ""a"") (qn ""b"")))").
Proof. vm_compute. reflexivity. Qed.
Example TestOperators_275 : dump (mkopts false false false false false true no_letter) (lit "$x = a +b") = Some (lit "(= (var ""x"") (+ (qn ""a"") (qn ""b"")))").
Proof. vm_compute. reflexivity. Qed.
Example TestOperators_276 : dump (mkopts false false false false false true no_letter) (lit "$x = +4") = Some (lit "(= (var ""x"") 4)").
Proof. vm_compute. reflexivity. Qed.
Example TestOperators_277 : dump (mkopts false false false false false true no_letter) (lit "$x = 10 - 5 - 3") = Some (lit "(= (var ""x"") (- (- 10 5) 3))").
Proof. vm_compute. reflexivity. Qed.
Example TestOperators_278 : dump (mkopts false false false false false true no_letter) (lit "$x = 10 - 5 * 3") = Some (lit "(= (var ""x"") (- 10 (* 5 3)))").
Proof. vm_compute. reflexivity. Qed.
Example TestOperators_279 : dump (mkopts false false false false false true no_letter) (lit "$x = a * (b + c)") = Some (lit "(= (var ""x"") (* (qn ""a"") (paren (+ (qn ""b"") (qn ""c"")))))").
Proof. vm_compute. reflexivity. Qed.
Example TestOperators_280 : dump (mkopts false false false false false true no_letter) (lit "$x = $y -= $z") = Some (lit "(= (var ""x"") (-= (var ""y"") (var ""z"")))").
Proof. vm_compute. reflexivity. Qed.
Example TestOperators_281 : dump (mkopts false false false false false true no_letter) (lit "$x = $y + $z % 5") = Some (lit "(= (var ""x"") (+ (var ""y"") (% (var ""z"") 5)))").
Proof. vm_compute. reflexivity. Qed.
Example TestOperators_282 : dump (mkopts false false false false false true no_letter) (lit "$x = $y += $z") = Some (lit "(= (var ""x"") (+= (var ""y"") (var ""z"")))").
Proof. vm_compute. reflexivity. Qed.
Example TestOperators_283 : error (mkopts false false false false false true no_letter) (lit "$x = +b") = Some (lit "unexpected token '+' (line: 1, column: 7)").
Proof. vm_compute. reflexivity. Qed.
Example TestMatch_284 : dump (mkopts false false false false false true no_letter) (lit "a =~ /^[a-z]+$/") = Some (lit "(=~ (qn ""a"") (regexp ""^[a-z]+$""))").
Proof. vm_compute. reflexivity. Qed.
Example TestMatch_285 : dump (mkopts false false false false false true no_letter) (lit "a !~ /^[a-z]+$/") = Some (lit "(!~ (qn ""a"") (regexp ""^[a-z]+$""))").
Proof. vm_compute. reflexivity. Qed.
Example TestIn_286 : dump (mkopts false false false false false true no_letter) (lit "'eat' in 'eaten'") = Some (lit "(in ""eat"" ""eaten"")").
Proof. vm_compute. reflexivity. Qed.
Example TestIn_287 : dump (mkopts false false false false false true no_letter) (lit "'eat' in ['eat', 'ate', 'eating']") = Some (lit "(in ""eat"" (array ""eat"" ""ate"" ""eating""))").
Proof. vm_compute. reflexivity. Qed.
Example TestEPP_288 : dump (mkopts true false false false false true no_letter) (lit "") = Some (lit "(lambda {:body [(epp (render-s """"))]})").
Proof. vm_compute. reflexivity. Qed.
Example TestEPP_289 : dump (mkopts true false false false false true no_letter) [115; 111; 109; 101; 32; 97; 114; 98; 105; 116; 114; 97; 114; 121; 32; 116; 101; 120; 116; 10; 115; 112; 97; 110; 110; 105; 110; 103; 32; 109; 117; 108; 116; 105; 112; 108; 101; 32; 108; 105; 110; 101; 115] = Some (lit "(lambda {:body [(epp (render-s ""some arbitrary text\nspanning multiple lines""))]})").
Proof. vm_compute. reflexivity. Qed.
Example TestEPP_290 : dump (mkopts true false false false false true no_letter) [60; 37; 124; 124; 37; 62; 32; 115; 111; 109; 101; 32; 97; 114; 98; 105; 116; 114; 97; 114; 121; 32; 116; 101; 120; 116; 10; 115; 112; 97; 110; 110; 105; 110; 103; 32; 109; 117; 108; 116; 105; 112; 108; 101; 32; 108; 105; 110; 101; 115] = Some (lit "(lambda {:body [(epp (render-s "" some arbitrary text\nspanning multiple lines""))]})").
Proof. vm_compute. reflexivity. Qed.
Example TestEPP_291 : dump (mkopts true false false false false true no_letter) (lit "<%||%> some <%#-%>text") = Some (lit "(lambda {:body [(epp (render-s "" some text""))]})").
Proof. vm_compute. reflexivity. Qed.
Example TestEPP_292 : error (mkopts true false false false false true no_letter) (lit "<%||%> some <%#-text") = Some (lit "unbalanced epp comment (line: 1, column: 13)").
Proof. vm_compute. reflexivity. Qed.
Example TestEPP_293 : dump (mkopts true false false false false true no_letter) (lit "<%||%> some <%%-%%-%%> text") = Some (lit "(lambda {:body [(epp (render-s "" some <%-%%-%> text""))]})").
Proof. vm_compute. reflexivity. Qed.
Example TestEPP_294 : dump (mkopts true false false false false true no_letter) (lit "<%||-%> some <-% %-> text") = Some (lit "(lambda {:body [(epp (render-s ""some <-% %-> text""))]})").
Proof. vm_compute. reflexivity. Qed.
Example TestEPP_295 : dump (mkopts true false false false false true no_letter) (lit "<%-||-%> some <%- $x = 3 %> text") = Some (lit "(lambda {:body [(epp (render-s ""some"") (= (var ""x"") 3) (render-s "" text""))]})").
Proof. vm_compute. reflexivity. Qed.
Example TestEPP_296 : error (mkopts true false false false false true no_letter) (lit "<%-||-%> some <%- $x = 3 -% $y %> text") = Some (lit "invalid operator '-%' (line: 1, column: 28)").
Proof. vm_compute. reflexivity. Qed.
Example TestEPP_297 : block (mkopts true false false false false true no_letter) [118; 99; 101; 110; 116; 101; 114; 58; 32; 123; 10; 32; 32; 104; 111; 115; 116; 58; 32; 34; 60; 37; 61; 32; 36; 104; 111; 115; 116; 32; 37; 62; 34; 10; 32; 32; 117; 115; 101; 114; 58; 32; 34; 60; 37; 61; 32; 36; 117; 115; 101; 114; 110; 97; 109; 101; 32; 37; 62; 34; 10; 32; 32; 112; 97; 115; 115; 119; 111; 114; 100; 58; 32; 34; 60; 37; 61; 32; 36; 112; 97; 115; 115; 119; 111; 114; 100; 32; 37; 62; 34; 10; 125] = Some (lit "(lambda {:body [(epp (render-s ""vcenter: {\n  host: \"""") (render (var ""host"")) (render-s ""\""\n  user: \"""") (render (var ""username"")) (render-s ""\""\n  password: \"""") (render (var ""password"")) (render-s ""\""\n}""))]})").
Proof. vm_compute. reflexivity. Qed.
Example TestEPP_298 : dump (mkopts true false false false false true no_letter) [60; 37; 45; 32; 124; 32; 66; 111; 111; 108; 101; 97; 110; 32; 36; 107; 101; 121; 115; 95; 101; 110; 97; 98; 108; 101; 44; 10; 32; 32; 83; 116; 114; 105; 110; 103; 32; 32; 36; 107; 101; 121; 115; 95; 102; 105; 108; 101; 44; 10; 32; 32; 65; 114; 114; 97; 121; 32; 32; 32; 36; 107; 101; 121; 115; 95; 116; 114; 117; 115; 116; 101; 100; 44; 10; 32; 32; 83; 116; 114; 105; 110; 103; 32; 32; 36; 107; 101; 121; 115; 95; 114; 101; 113; 117; 101; 115; 116; 107; 101; 121; 44; 10; 32; 32; 83; 116; 114; 105; 110; 103; 32; 32; 36; 107; 101; 121; 115; 95; 99; 111; 110; 116; 114; 111; 108; 107; 101; 121; 10; 124; 32; 45; 37; 62; 10; 60; 37; 35; 32; 80; 97; 114; 97; 109; 101; 116; 101; 114; 32; 116; 97; 103; 32; 226; 134; 145; 32; 45; 37; 62; 10; 10; 60; 37; 35; 32; 78; 111; 110; 45; 112; 114; 105; 110; 116; 105; 110; 103; 32; 116; 97; 103; 32; 226; 134; 147; 32; 45; 37; 62; 10; 60; 37; 32; 105; 102; 32; 36; 107; 101; 121; 115; 95; 101; 110; 97; 98; 108; 101; 32; 123; 32; 45; 37; 62; 10; 10; 60; 37; 35; 32; 69; 120; 112; 114; 101; 115; 115; 105; 111; 110; 45; 112; 114; 105; 110; 116; 105; 110; 103; 32; 116; 97; 103; 32; 226; 134; 147; 32; 45; 37; 62; 10; 107; 101; 121; 115; 32; 60; 37; 61; 32; 36; 107; 101; 121; 115; 95; 102; 105; 108; 101; 32; 37; 62; 10; 60; 37; 32; 117; 110; 108; 101; 115; 115; 32; 36; 107; 101; 121; 115; 95; 116; 114; 117; 115; 116; 101; 100; 32; 61; 126; 32; 65; 114; 114; 97; 121; 91; 68; 97; 116; 97; 44; 48; 44; 48; 93; 32; 123; 32; 45; 37; 62; 10; 116; 114; 117; 115; 116; 101; 100; 107; 101; 121; 32; 60; 37; 61; 32; 36; 107; 101; 121; 115; 95; 116; 114; 117; 115; 116; 101; 100; 46; 106; 111; 105; 110; 40; 39; 32; 39; 41; 32; 37; 62; 10; 60; 37; 32; 125; 32; 45; 37; 62; 10; 60; 37; 32; 105; 102; 32; 36; 107; 101; 121; 115; 95; 114; 101; 113; 117; 101; 115; 116; 107; 101; 121; 32; 61; 126; 32; 83; 116; 114; 105; 110; 103; 91; 49; 93; 32; 123; 32; 45; 37; 62; 10; 114; 101; 113; 117; 101; 115; 116; 107; 101; 121; 32; 60; 37; 61; 32; 36; 107; 101; 121; 115; 95; 114; 101; 113; 117; 101; 115; 116; 107; 101; 121; 32; 37; 62; 10; 60; 37; 32; 125; 32; 45; 37; 62; 10; 60; 37; 32; 105; 102; 32; 36; 107; 101; 121; 115; 95; 99; 111; 110; 116; 114; 111; 108; 107; 101; 121; 32; 61; 126; 32; 83; 116; 114; 105; 110; 103; 91; 49; 93; 32; 123; 32; 45; 37; 62; 10; 99; 111; 110; 116; 114; 111; 108; 107; 101; 121; 32; 60; 37; 61; 32; 36; 107; 101; 121; 115; 95; 99; 111; 110; 116; 114; 111; 108; 107; 101; 121; 32; 37; 62; 10; 60; 37; 32; 125; 32; 45; 37; 62; 10; 10; 60; 37; 32; 125; 32; 45; 37; 62] = Some (lit "(lambda {:params {:keys_enable {:type (qr ""Boolean"")} :keys_file {:type (qr ""String"")} :keys_trusted {:type (qr ""Array"")} :keys_requestkey {:type (qr ""String"")} :keys_controlkey {:type (qr ""String"")}} :body [(epp (render-s ""\n\n\n"") (if {:test (var ""keys_enable"") :then [(render-s ""\n\nkeys "") (render (var ""keys_file"")) (render-s ""\n"") (unless {:test (=~ (var ""keys_trusted"") (access (qr ""Array"") (qr ""Data"") 0 0)) :then [(render-s ""trustedkey "") (render (call-method {:functor (. (var ""keys_trusted"") (qn ""join"")) :args ["" ""]})) (render-s ""\n"")]}) (if {:test (=~ (var ""keys_requestkey"") (access (qr ""String"") 1)) :then [(render-s ""requestkey "") (render (var ""keys_requestkey"")) (render-s ""\n"")]}) (if {:test (=~ (var ""keys_controlkey"") (access (qr ""String"") 1)) :then [(render-s ""controlkey "") (render (var ""keys_controlkey"")) (render-s ""\n"")]}) (render-s ""\n"")]}))]})").
Proof. vm_compute. reflexivity. Qed.
Example TestEPP_299 : error (mkopts false false false false false true no_letter) (lit "<% $x = 3 %> text") = Some (lit "unexpected token '<' (line: 1, column: 1)").
Proof. vm_compute. reflexivity. Qed.
Example TestEPP_300 : error (mkopts false false false false false true no_letter) (lit "$x = 3 %> 4") = Some (lit "unexpected token '>' (line: 1, column: 9)").
Proof. vm_compute. reflexivity. Qed.
Example TestEPP_301 : error (mkopts false false false false false true no_letter) (lit "$x = 3 -%> 4") = Some (lit "unexpected token '%' (line: 1, column: 9)").
Proof. vm_compute. reflexivity. Qed.
Example TestEPP_302 : error (mkopts true false false false false true no_letter) [10; 60; 37; 32; 124; 83; 116; 114; 105; 110; 103; 32; 36; 120; 124; 32; 37; 62; 10] = Some (lit "Ambiguous EPP parameter expression. Probably missing '<%-' before parameters to remove leading whitespace (line: 2, column: 5)").
Proof. vm_compute. reflexivity. Qed.
