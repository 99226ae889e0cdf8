(** * ConformValidator: generated by tools/goconf.py from validator/*_test.go

    Each Go test becomes an Example that the model passes by computation.
    These are tests of the model against the expectations recorded in the
    repository, not property proofs. *)
From Verif Require Import Base Float Tokens Ast Pn ToPN Ctx Locator Lexer Parser Messages Literal Visit Validator Api Conform.
Example TestVariableAssignValidation_1 : expect_issues Basic (mkopts false false false false false true no_letter) (lit "$x = 'y'") [] = true.
Proof. vm_compute. reflexivity. Qed.
Example TestNumericVariableAssignValidation_2 : expect_issues Basic (mkopts false false false false false true no_letter) (lit "$1 = 'y'") [IllegalNumericAssignment] = true.
Proof. vm_compute. reflexivity. Qed.
Example TestMultipleVariableAssign_3 : expect_issues Basic (mkopts false false false false false true no_letter) (lit "[$a, $b] = 'y'") [] = true.
Proof. vm_compute. reflexivity. Qed.
Example TestMultipleVariableAssign_4 : expect_issues Basic (mkopts false false false false false true no_letter) (lit "[$a, $1] = 'y'") [IllegalNumericAssignment] = true.
Proof. vm_compute. reflexivity. Qed.
Example TestMultipleVariableAssign_5 : expect_issues Basic (mkopts false false false false false true no_letter) (lit "[$a, $b['h']] = 'y'") [IllegalAssignmentViaIndex] = true.
Proof. vm_compute. reflexivity. Qed.
Example TestMultipleVariableAssign_6 : expect_issues Basic (mkopts false false false false false true no_letter) (lit "[$a, $b::z] = 'y'") [CrossScopeAssignment] = true.
Proof. vm_compute. reflexivity. Qed.
Example TestAccessAssignValidation_7 : expect_issues Basic (mkopts false false false false false true no_letter) (lit "$x['h'] = 'y'") [IllegalAssignmentViaIndex] = true.
Proof. vm_compute. reflexivity. Qed.
Example TestAccessAssignValidation_8 : expect_issues Basic (mkopts false false false false false true no_letter) (lit "$::x = 'y'") [CrossScopeAssignment] = true.
Proof. vm_compute. reflexivity. Qed.
Example TestAppendsDeletesValidation_9 : expect_issues Basic (mkopts false false false false false true no_letter) (lit "$x += 'y'") [AppendsDeletesNoLongerSupported] = true.
Proof. vm_compute. reflexivity. Qed.
Example TestAppendsDeletesValidation_10 : expect_issues Basic (mkopts false false false false false true no_letter) (lit "$x -= 'y'") [AppendsDeletesNoLongerSupported] = true.
Proof. vm_compute. reflexivity. Qed.
Example TestNamespaceAssignValidation_11 : expect_issues Basic (mkopts false false false false false true no_letter) (lit "$x::z = 'y'") [CrossScopeAssignment] = true.
Proof. vm_compute. reflexivity. Qed.
Example TestAttributeAppendValidation_12 : expect_issues Basic (mkopts false false false false false true no_letter) (lit "Service[apache] { require +> File['apache.pem'] }") [] = true.
Proof. vm_compute. reflexivity. Qed.
Example TestAttributeAppendValidation_13 : expect_issues Basic (mkopts false false false false false true no_letter) (lit "service { apache: require +> File['apache.pem'] }") [IllegalAttributeAppend] = true.
Proof. vm_compute. reflexivity. Qed.
Example TestAttributesOpValidation_14 : expect_issues Basic (mkopts false false false false false true no_letter) [10; 32; 32; 32; 32; 32; 32; 102; 105; 108; 101; 32; 123; 32; 39; 47; 116; 109; 112; 47; 102; 111; 111; 39; 58; 10; 32; 32; 32; 32; 32; 32; 32; 32; 101; 110; 115; 117; 114; 101; 32; 61; 62; 32; 102; 105; 108; 101; 44; 10; 32; 32; 32; 32; 32; 32; 32; 32; 42; 32; 61; 62; 32; 36; 102; 105; 108; 101; 95; 111; 119; 110; 101; 114; 115; 104; 105; 112; 10; 32; 32; 32; 32; 32; 32; 125] [] = true.
Proof. vm_compute. reflexivity. Qed.
Example TestAttributesOpValidation_15 : expect_issues Basic (mkopts false false false false false true no_letter) [70; 105; 108; 101; 32; 60; 124; 32; 109; 111; 100; 101; 32; 61; 61; 32; 39; 48; 54; 52; 52; 39; 32; 124; 62; 32; 123; 10; 32; 32; 42; 32; 61; 62; 32; 36; 102; 105; 108; 101; 95; 111; 119; 110; 101; 114; 115; 104; 105; 112; 10; 125] [UnsupportedOperatorInContext] = true.
Proof. vm_compute. reflexivity. Qed.
Example TestAttributesOpValidation_16 : expect_issues Basic (mkopts false false false false false true no_letter) [70; 105; 108; 101; 32; 123; 10; 32; 32; 101; 110; 115; 117; 114; 101; 32; 61; 62; 32; 102; 105; 108; 101; 44; 10; 32; 32; 42; 32; 61; 62; 32; 36; 102; 105; 108; 101; 95; 111; 119; 110; 101; 114; 115; 104; 105; 112; 10; 125] [UnsupportedOperatorInContext] = true.
Proof. vm_compute. reflexivity. Qed.
Example TestAttributesOpValidation_17 : expect_issues Basic (mkopts false false false false false true no_letter) [70; 105; 108; 101; 91; 39; 47; 116; 109; 112; 47; 102; 111; 111; 39; 93; 32; 123; 10; 32; 32; 101; 110; 115; 117; 114; 101; 32; 61; 62; 32; 102; 105; 108; 101; 44; 10; 32; 32; 42; 32; 61; 62; 32; 36; 102; 105; 108; 101; 95; 111; 119; 110; 101; 114; 115; 104; 105; 112; 10; 125] [UnsupportedOperatorInContext] = true.
Proof. vm_compute. reflexivity. Qed.
Example TestAttributesOpValidation_18 : expect_issues Basic (mkopts false false false false false true no_letter) [102; 105; 108; 101; 32; 123; 32; 39; 47; 116; 109; 112; 47; 102; 111; 111; 39; 58; 10; 32; 32; 101; 110; 115; 117; 114; 101; 32; 61; 62; 32; 102; 105; 108; 101; 44; 10; 32; 32; 42; 32; 61; 62; 32; 102; 117; 110; 99; 116; 105; 111; 110; 32; 102; 111; 111; 40; 41; 32; 123; 125; 10; 125] [NotTopLevel; NotRvalue] = true.
Proof. vm_compute. reflexivity. Qed.
Example TestCallNamedFunctionValidation_19 : expect_issues Basic (mkopts false false false false false true no_letter) [105; 110; 99; 108; 117; 100; 101; 32; 97; 112; 97; 99; 104; 101; 10] [] = true.
Proof. vm_compute. reflexivity. Qed.
Example TestCallNamedFunctionValidation_20 : expect_issues Basic (mkopts false false false false false true no_letter) [36; 120; 32; 61; 32; 83; 116; 114; 105; 110; 103; 40; 49; 50; 51; 44; 32; 49; 54; 41; 10] [] = true.
Proof. vm_compute. reflexivity. Qed.
Example TestCallNamedFunctionValidation_21 : expect_issues Basic (mkopts false false false false false true no_letter) [36; 120; 32; 61; 32; 69; 110; 117; 109; 91; 39; 97; 39; 44; 32; 39; 98; 39; 93; 40; 39; 97; 39; 41; 10] [] = true.
Proof. vm_compute. reflexivity. Qed.
Example TestCallNamedFunctionValidation_22 : expect_issues Basic (mkopts false false false false false true no_letter) [36; 120; 32; 61; 32; 101; 110; 117; 109; 91; 39; 97; 39; 44; 32; 39; 98; 39; 93; 40; 39; 97; 39; 41; 10] [IllegalExpression] = true.
Proof. vm_compute. reflexivity. Qed.
Example TestBinaryOpValidation_23 : expect_issues Basic (mkopts false false false false false true no_letter) (lit "notice(define foo() {} < 3)") [NotTopLevel; NotRvalue] = true.
Proof. vm_compute. reflexivity. Qed.
Example TestBinaryOpValidation_24 : expect_issues Basic (mkopts false false false false false true no_letter) (lit "notice(true == !false)") [] = true.
Proof. vm_compute. reflexivity. Qed.
Example TestBlockValidation_25 : expect_issues Basic (mkopts false false false false false true no_letter) [91; 39; 97; 39; 44; 32; 39; 98; 39; 93; 10; 36; 120; 32; 61; 32; 51; 10] [IdemExpressionNotLast] = true.
Proof. vm_compute. reflexivity. Qed.
Example TestBlockValidation_26 : expect_issues Basic (mkopts false false false false false true no_letter) [99; 97; 115; 101; 32; 36; 122; 32; 123; 10; 50; 58; 32; 123; 32; 116; 114; 117; 101; 32; 125; 10; 51; 58; 32; 123; 32; 102; 97; 108; 115; 101; 32; 125; 10; 100; 101; 102; 97; 117; 108; 116; 58; 32; 123; 32; 102; 97; 108; 115; 101; 32; 125; 10; 125; 10; 36; 120; 32; 61; 32; 51; 10] [IdemExpressionNotLast] = true.
Proof. vm_compute. reflexivity. Qed.
Example TestBlockValidation_27 : expect_issues Basic (mkopts false false false false false true no_letter) [99; 97; 115; 101; 32; 36; 122; 32; 123; 10; 50; 58; 32; 123; 32; 116; 114; 117; 101; 32; 125; 10; 51; 58; 32; 123; 32; 102; 97; 108; 115; 101; 32; 125; 10; 100; 101; 102; 97; 117; 108; 116; 58; 32; 123; 32; 36; 118; 32; 61; 32; 49; 32; 125; 10; 125; 10; 36; 120; 32; 61; 32; 51; 10] [] = true.
Proof. vm_compute. reflexivity. Qed.
Example TestBlockValidation_28 : expect_issues Basic (mkopts false false false false false true no_letter) [99; 97; 115; 101; 32; 40; 36; 122; 32; 61; 32; 50; 41; 32; 123; 10; 50; 58; 32; 123; 32; 116; 114; 117; 101; 32; 125; 10; 51; 58; 32; 123; 32; 102; 97; 108; 115; 101; 32; 125; 10; 100; 101; 102; 97; 117; 108; 116; 58; 32; 123; 32; 102; 97; 108; 115; 101; 32; 125; 10; 125; 10; 36; 120; 32; 61; 32; 51; 10] [] = true.
Proof. vm_compute. reflexivity. Qed.
Example TestBlockValidation_29 : expect_issues Basic (mkopts false false false false false true no_letter) [99; 97; 115; 101; 32; 36; 122; 32; 123; 10; 40; 36; 121; 32; 61; 32; 50; 41; 58; 32; 123; 32; 116; 114; 117; 101; 32; 125; 10; 51; 58; 32; 123; 32; 102; 97; 108; 115; 101; 32; 125; 10; 100; 101; 102; 97; 117; 108; 116; 58; 32; 123; 32; 102; 97; 108; 115; 101; 32; 125; 10; 125; 10; 36; 120; 32; 61; 32; 51; 10] [] = true.
Proof. vm_compute. reflexivity. Qed.
Example TestBlockValidation_30 : expect_issues Basic (mkopts false false false false false true no_letter) [105; 102; 32; 36; 122; 32; 123; 32; 51; 32; 125; 32; 101; 108; 115; 101; 32; 123; 32; 52; 32; 125; 10; 36; 120; 32; 61; 32; 51; 10] [IdemExpressionNotLast] = true.
Proof. vm_compute. reflexivity. Qed.
Example TestBlockValidation_31 : expect_issues Basic (mkopts false false false false false true no_letter) [105; 102; 32; 36; 122; 32; 123; 32; 36; 118; 32; 61; 32; 51; 32; 125; 32; 101; 108; 115; 101; 32; 123; 32; 36; 118; 32; 61; 32; 52; 32; 125; 10; 36; 120; 32; 61; 32; 51; 10] [] = true.
Proof. vm_compute. reflexivity. Qed.
Example TestBlockValidation_32 : expect_issues Basic (mkopts false false false false false true no_letter) [117; 110; 108; 101; 115; 115; 32; 36; 122; 32; 123; 32; 51; 32; 125; 10; 36; 120; 32; 61; 32; 51; 10] [IdemExpressionNotLast] = true.
Proof. vm_compute. reflexivity. Qed.
Example TestBlockValidation_33 : expect_issues Basic (mkopts false false false false false true no_letter) [117; 110; 108; 101; 115; 115; 32; 36; 122; 32; 123; 32; 36; 118; 32; 61; 32; 51; 32; 125; 10; 36; 120; 32; 61; 32; 51; 10] [] = true.
Proof. vm_compute. reflexivity. Qed.
Example TestBlockValidation_34 : expect_issues Basic (mkopts false false false false false true no_letter) [40; 51; 41; 10; 36; 120; 32; 61; 32; 51; 10] [IdemExpressionNotLast] = true.
Proof. vm_compute. reflexivity. Qed.
Example TestBlockValidation_35 : expect_issues Basic (mkopts false false false false false true no_letter) [40; 36; 118; 32; 61; 32; 51; 41; 10; 36; 120; 32; 61; 32; 51; 10] [] = true.
Proof. vm_compute. reflexivity. Qed.
Example TestCallMethodValidation_36 : expect_issues Basic (mkopts false false false false false true no_letter) [36; 120; 32; 61; 32; 36; 121; 46; 115; 105; 122; 101; 40; 41; 10] [] = true.
Proof. vm_compute. reflexivity. Qed.
Example TestCallMethodValidation_37 : expect_issues Basic (mkopts false false false false false true no_letter) (lit "$x = $y.Size()") [IllegalExpression] = true.
Proof. vm_compute. reflexivity. Qed.
Example TestCapabilityMappingValidation_38 : expect_issues Basic (mkopts false false false false false true no_letter) [83; 111; 109; 101; 116; 104; 105; 110; 103; 32; 112; 114; 111; 100; 117; 99; 101; 115; 32; 70; 111; 111; 32; 123; 125; 10] [] = true.
Proof. vm_compute. reflexivity. Qed.
Example TestCapabilityMappingValidation_39 : expect_issues Basic (mkopts false false false false false true no_letter) [83; 111; 109; 101; 116; 104; 105; 110; 103; 91; 65; 93; 32; 112; 114; 111; 100; 117; 99; 101; 115; 32; 70; 111; 111; 32; 123; 125; 10] [] = true.
Proof. vm_compute. reflexivity. Qed.
Example TestCapabilityMappingValidation_40 : expect_issues Basic (mkopts false false false false false true no_letter) [115; 111; 109; 101; 116; 104; 105; 110; 103; 32; 112; 114; 111; 100; 117; 99; 101; 115; 32; 70; 111; 111; 32; 123; 125; 10] [IllegalClassref] = true.
Proof. vm_compute. reflexivity. Qed.
Example TestCapabilityMappingValidation_41 : expect_issues Basic (mkopts false false false false false true no_letter) [83; 111; 109; 101; 116; 104; 105; 110; 103; 32; 112; 114; 111; 100; 117; 99; 101; 115; 32; 102; 111; 111; 32; 123; 125; 10] [IllegalClassref] = true.
Proof. vm_compute. reflexivity. Qed.
Example TestCapabilityMappingValidation_42 : expect_issues Basic (mkopts false false false false false true no_letter) [83; 111; 109; 101; 116; 104; 105; 110; 103; 91; 39; 65; 39; 44; 32; 39; 66; 39; 93; 32; 112; 114; 111; 100; 117; 99; 101; 115; 32; 70; 111; 111; 32; 123; 125; 10] [IllegalExpression] = true.
Proof. vm_compute. reflexivity. Qed.
Example TestCaseExpressionValidation_43 : expect_issues Basic (mkopts false false false false false true no_letter) [99; 97; 115; 101; 32; 36; 120; 32; 123; 10; 32; 32; 39; 97; 39; 58; 32; 123; 32; 116; 114; 117; 101; 32; 125; 10; 32; 32; 100; 101; 102; 97; 117; 108; 116; 58; 32; 123; 32; 39; 102; 97; 108; 115; 101; 39; 32; 125; 10; 125] [] = true.
Proof. vm_compute. reflexivity. Qed.
Example TestCaseExpressionValidation_44 : expect_issues Basic (mkopts false false false false false true no_letter) [99; 97; 115; 101; 32; 36; 120; 32; 123; 10; 32; 32; 39; 97; 39; 58; 32; 123; 32; 116; 114; 117; 101; 32; 125; 10; 32; 32; 100; 101; 102; 97; 117; 108; 116; 58; 32; 123; 32; 39; 102; 97; 108; 115; 101; 39; 32; 125; 10; 32; 32; 100; 101; 102; 97; 117; 108; 116; 58; 32; 123; 32; 39; 116; 114; 117; 101; 39; 32; 125; 10; 125] [DuplicateDefault] = true.
Proof. vm_compute. reflexivity. Qed.
Example TestCaseExpressionValidation_45 : expect_issues Basic (mkopts false false false false false true no_letter) [99; 97; 115; 101; 32; 36; 120; 32; 123; 10; 32; 32; 102; 117; 110; 99; 116; 105; 111; 110; 32; 102; 111; 111; 40; 41; 32; 123; 125; 58; 32; 123; 32; 116; 114; 117; 101; 32; 125; 10; 32; 32; 100; 101; 102; 97; 117; 108; 116; 58; 32; 123; 32; 102; 97; 108; 115; 101; 32; 125; 10; 125] [NotTopLevel; NotRvalue] = true.
Proof. vm_compute. reflexivity. Qed.
Example TestCollectValidation_46 : expect_issues Basic (mkopts false false false false false true no_letter) (lit "User <| groups == 'admin' |>") [] = true.
Proof. vm_compute. reflexivity. Qed.
Example TestCollectValidation_47 : expect_issues Basic (mkopts false false false false false true no_letter) (lit "User <| (groups == 'admin') |>") [] = true.
Proof. vm_compute. reflexivity. Qed.
Example TestCollectValidation_48 : expect_issues Basic (mkopts false false false false false true no_letter) (lit "User <| present |>") [] = true.
Proof. vm_compute. reflexivity. Qed.
Example TestCollectValidation_49 : expect_issues Basic (mkopts false false false false false true no_letter) (lit "User <| present and groups == 'admin' |>") [] = true.
Proof. vm_compute. reflexivity. Qed.
Example TestCollectValidation_50 : expect_issues Basic (mkopts false false false false false true no_letter) (lit "User <| $x + 1 |>") [IllegalQueryExpression] = true.
Proof. vm_compute. reflexivity. Qed.
Example TestCollectValidation_51 : expect_issues Basic (mkopts false false false false false true no_letter) (lit "User <| groups >= 'admin' |>") [IllegalQueryExpression] = true.
Proof. vm_compute. reflexivity. Qed.
Example TestCollectValidation_52 : expect_issues Basic (mkopts false false false false false true no_letter) (lit "user <| groups == 'admin' |>") [IllegalExpression] = true.
Proof. vm_compute. reflexivity. Qed.
Example TestCollectValidation_53 : expect_issues Basic (mkopts false false false false false true no_letter) (lit "User <<| groups == 'admin' |>>") [] = true.
Proof. vm_compute. reflexivity. Qed.
Example TestCollectValidation_54 : expect_issues Basic (mkopts false false false false false true no_letter) (lit "User <<| (groups == 'admin') |>>") [] = true.
Proof. vm_compute. reflexivity. Qed.
Example TestCollectValidation_55 : expect_issues Basic (mkopts false false false false false true no_letter) (lit "User <<| present |>>") [] = true.
Proof. vm_compute. reflexivity. Qed.
Example TestCollectValidation_56 : expect_issues Basic (mkopts false false false false false true no_letter) (lit "User <<| present and groups == 'admin' |>>") [] = true.
Proof. vm_compute. reflexivity. Qed.
Example TestCollectValidation_57 : expect_issues Basic (mkopts false false false false false true no_letter) (lit "User <<| $x + 1 |>>") [IllegalQueryExpression] = true.
Proof. vm_compute. reflexivity. Qed.
Example TestCollectValidation_58 : expect_issues Basic (mkopts false false false false false true no_letter) (lit "User <<| groups >= 'admin' |>>") [IllegalQueryExpression] = true.
Proof. vm_compute. reflexivity. Qed.
Example TestCollectValidation_59 : expect_issues Basic (mkopts false false false false false true no_letter) (lit "user <<| groups == 'admin' |>>") [IllegalExpression] = true.
Proof. vm_compute. reflexivity. Qed.
Example TestEppValidation_60 : expect_issues Basic (mkopts true false false false false true no_letter) [60; 37; 45; 124; 32; 36; 97; 44; 32; 36; 98; 32; 124; 45; 37; 62; 10; 84; 104; 105; 115; 32; 105; 115; 32; 36; 97; 32; 60; 37; 61; 32; 36; 97; 32; 37; 62] [] = true.
Proof. vm_compute. reflexivity. Qed.
Example TestEppValidation_61 : expect_issues Basic (mkopts true false false false false true no_letter) [60; 37; 45; 124; 32; 36; 97; 44; 32; 36; 98; 44; 32; 36; 97; 32; 124; 45; 37; 62; 10; 84; 104; 105; 115; 32; 105; 115; 32; 36; 97; 32; 60; 37; 61; 32; 36; 97; 32; 37; 62] [DuplicateParameter] = true.
Proof. vm_compute. reflexivity. Qed.
Example TestEppValidation_62 : expect_issues Basic (mkopts true false false false false true no_letter) [60; 37; 45; 124; 32; 36; 97; 44; 32; 42; 36; 98; 32; 124; 45; 37; 62; 10; 84; 104; 105; 115; 32; 105; 115; 32; 36; 97; 32; 60; 37; 61; 32; 36; 97; 32; 37; 62] [CapturesRestNotSupported] = true.
Proof. vm_compute. reflexivity. Qed.
Example TestFunctionDefinitionValidation_63 : expect_issues Basic (mkopts false false false false false true no_letter) (lit "function foo() {}") [] = true.
Proof. vm_compute. reflexivity. Qed.
Example TestFunctionDefinitionValidation_64 : expect_issues Basic (mkopts false false false false false true no_letter) (lit "function foo($a, *$b) {}") [] = true.
Proof. vm_compute. reflexivity. Qed.
Example TestFunctionDefinitionValidation_65 : expect_issues Basic (mkopts false false false false false true no_letter) (lit "function foo($a, *$b, $c) {}") [CapturesRestNotLast] = true.
Proof. vm_compute. reflexivity. Qed.
Example TestFunctionDefinitionValidation_66 : expect_issues Basic (mkopts false false false false false true no_letter) (lit "function foo($a::b) {}") [IllegalParameterName] = true.
Proof. vm_compute. reflexivity. Qed.
Example TestFunctionDefinitionValidation_67 : expect_issues Basic (mkopts false false false false false true no_letter) (lit "function foo($a = ($x = 3)) {}") [IllegalAssignmentContext] = true.
Proof. vm_compute. reflexivity. Qed.
Example TestFunctionDefinitionValidation_68 : expect_issues Basic (mkopts false false false false false true no_letter) (lit "function foo($a = bar() |$p| { $p = 1 }) {}") [] = true.
Proof. vm_compute. reflexivity. Qed.
Example TestFunctionDefinitionValidation_69 : expect_issues Basic (mkopts false false false false false true no_letter) [102; 117; 110; 99; 116; 105; 111; 110; 32; 102; 111; 111; 40; 41; 32; 123; 10; 32; 32; 102; 117; 110; 99; 116; 105; 111; 110; 32; 98; 97; 114; 40; 41; 32; 123; 125; 10; 125] [NotAbsoluteTopLevel] = true.
Proof. vm_compute. reflexivity. Qed.
Example TestFunctionDefinitionValidation_70 : expect_issues Basic (mkopts false false false false false true no_letter) [102; 117; 110; 99; 116; 105; 111; 110; 32; 102; 111; 111; 40; 41; 32; 62; 62; 32; 65; 112; 112; 108; 105; 99; 97; 116; 105; 111; 110; 32; 123; 10; 125] [FutureReservedWord] = true.
Proof. vm_compute. reflexivity. Qed.
Example TestFunctionDefinitionValidation_71 : expect_issues Basic (mkopts false false false false false true no_letter) [102; 117; 110; 99; 116; 105; 111; 110; 32; 102; 111; 111; 40; 41; 32; 62; 62; 32; 65; 112; 112; 108; 105; 99; 97; 116; 105; 111; 110; 91; 88; 93; 32; 123; 10; 125] [FutureReservedWord] = true.
Proof. vm_compute. reflexivity. Qed.
Example TestFunctionDefinitionValidation_72 : expect_issues Basic (mkopts false false false false false true no_letter) [102; 117; 110; 99; 116; 105; 111; 110; 32; 118; 97; 114; 105; 97; 110; 116; 40; 41; 32; 123; 10; 125] [ReservedTypeName] = true.
Proof. vm_compute. reflexivity. Qed.
Example TestFunctionDefinitionValidation_73 : expect_issues Basic (mkopts false false false false false true no_letter) [102; 117; 110; 99; 116; 105; 111; 110; 32; 70; 111; 111; 40; 41; 32; 123; 10; 125] [IllegalDefinitionName] = true.
Proof. vm_compute. reflexivity. Qed.
Example TestHostClassDefinitionValidation_74 : expect_issues Basic (mkopts false false false false false true no_letter) (lit "class foo {}") [] = true.
Proof. vm_compute. reflexivity. Qed.
Example TestHostClassDefinitionValidation_75 : expect_issues Basic (mkopts false false false false false true no_letter) [99; 108; 97; 115; 115; 32; 102; 111; 111; 32; 123; 10; 32; 32; 99; 108; 97; 115; 115; 32; 98; 97; 114; 32; 123; 125; 10; 125] [] = true.
Proof. vm_compute. reflexivity. Qed.
Example TestHostClassDefinitionValidation_76 : expect_issues Basic (mkopts false false false false false true no_letter) [99; 108; 97; 115; 115; 32; 102; 111; 111; 40; 36; 97; 44; 32; 42; 36; 98; 41; 32; 123; 10; 125] [CapturesRestNotSupported] = true.
Proof. vm_compute. reflexivity. Qed.
Example TestHostClassDefinitionValidation_77 : expect_issues Basic (mkopts false false false false false true no_letter) [99; 108; 97; 115; 115; 32; 102; 111; 111; 40; 36; 116; 105; 116; 108; 101; 44; 32; 36; 98; 41; 32; 123; 10; 125] [ReservedParameter] = true.
Proof. vm_compute. reflexivity. Qed.
Example TestHostClassDefinitionValidation_78 : expect_issues Basic (mkopts false false false false false true no_letter) [99; 108; 97; 115; 115; 32; 102; 111; 111; 40; 36; 110; 97; 109; 101; 44; 32; 36; 98; 41; 32; 123; 10; 125] [ReservedParameter] = true.
Proof. vm_compute. reflexivity. Qed.
Example TestHostClassDefinitionValidation_79 : expect_issues Basic (mkopts false false false false false true no_letter) [99; 108; 97; 115; 115; 32; 102; 111; 111; 40; 36; 97; 41; 32; 123; 10; 32; 32; 91; 36; 97; 93; 10; 125] [IdemNotAllowedLast] = true.
Proof. vm_compute. reflexivity. Qed.
Example TestHostClassDefinitionValidation_80 : expect_issues Basic (mkopts false false false false false true no_letter) [99; 108; 97; 115; 115; 32; 118; 97; 114; 105; 97; 110; 116; 32; 123; 10; 125] [ReservedTypeName] = true.
Proof. vm_compute. reflexivity. Qed.
Example TestHostClassDefinitionValidation_81 : expect_issues Basic (mkopts false false false false false true no_letter) [99; 108; 97; 115; 115; 32; 70; 111; 111; 32; 123; 10; 125] [IllegalDefinitionName] = true.
Proof. vm_compute. reflexivity. Qed.
Example TestLiteralHashValidation_82 : expect_issues Basic (mkopts false false false false false true no_letter) [36; 120; 32; 61; 32; 123; 10; 32; 32; 49; 32; 61; 62; 32; 39; 111; 110; 101; 39; 44; 10; 32; 32; 39; 50; 39; 32; 61; 62; 32; 39; 116; 119; 111; 39; 44; 10; 32; 32; 51; 46; 48; 32; 61; 62; 32; 39; 116; 104; 114; 101; 101; 39; 44; 10; 32; 32; 116; 114; 117; 101; 32; 61; 62; 32; 39; 116; 114; 117; 101; 39; 44; 10; 32; 32; 117; 110; 100; 101; 102; 32; 61; 62; 32; 39; 117; 110; 100; 101; 102; 39; 44; 10; 32; 32; 100; 101; 102; 97; 117; 108; 116; 32; 61; 62; 32; 39; 100; 101; 102; 97; 117; 108; 116; 39; 10; 125] [] = true.
Proof. vm_compute. reflexivity. Qed.
Example TestLiteralHashValidation_83 : expect_issues Basic (mkopts false false false false false true no_letter) [36; 120; 32; 61; 32; 123; 10; 32; 32; 49; 32; 61; 62; 32; 39; 111; 110; 101; 39; 44; 10; 32; 32; 39; 50; 39; 32; 61; 62; 32; 39; 116; 119; 111; 39; 44; 10; 32; 32; 49; 32; 61; 62; 32; 39; 111; 110; 101; 32; 97; 103; 97; 105; 110; 39; 10; 125] [DuplicateKey] = true.
Proof. vm_compute. reflexivity. Qed.
Example TestLiteralHashValidation_84 : expect_issues Basic (mkopts false false false false false true no_letter) [36; 120; 32; 61; 32; 123; 10; 32; 32; 39; 102; 117; 110; 99; 39; 32; 61; 62; 32; 100; 101; 102; 105; 110; 101; 32; 102; 111; 111; 40; 41; 32; 123; 125; 10; 125] [NotTopLevel; NotRvalue] = true.
Proof. vm_compute. reflexivity. Qed.
Example TestLiteralListValidation_85 : expect_issues Basic (mkopts false false false false false true no_letter) [36; 120; 32; 61; 32; 91; 10; 32; 32; 49; 44; 32; 39; 50; 39; 44; 32; 51; 46; 48; 44; 32; 102; 111; 117; 114; 44; 32; 39; 102; 105; 118; 101; 39; 44; 32; 116; 114; 117; 101; 44; 32; 117; 110; 100; 101; 102; 44; 32; 100; 101; 102; 97; 117; 108; 116; 44; 32; 91; 49; 44; 32; 50; 93; 44; 32; 123; 39; 111; 110; 101; 39; 32; 61; 62; 32; 49; 125; 10; 93] [] = true.
Proof. vm_compute. reflexivity. Qed.
Example TestLiteralListValidation_86 : expect_issues Basic (mkopts false false false false false true no_letter) (lit "$x = [define foo() {}]") [NotTopLevel; NotRvalue] = true.
Proof. vm_compute. reflexivity. Qed.
Example TestResourceDefinitionValidation_87 : expect_issues Basic (mkopts false false false false false true no_letter) (lit "define foo() {}") [] = true.
Proof. vm_compute. reflexivity. Qed.
Example TestResourceDefinitionValidation_88 : expect_issues Basic (mkopts false false false false false true no_letter) [99; 108; 97; 115; 115; 32; 102; 111; 111; 40; 41; 32; 123; 10; 32; 32; 100; 101; 102; 105; 110; 101; 32; 98; 97; 114; 40; 41; 32; 123; 125; 10; 125] [] = true.
Proof. vm_compute. reflexivity. Qed.
Example TestResourceDefinitionValidation_89 : expect_issues Basic (mkopts false false false false false true no_letter) [100; 101; 102; 105; 110; 101; 32; 102; 111; 111; 40; 41; 32; 123; 10; 32; 32; 100; 101; 102; 105; 110; 101; 32; 98; 97; 114; 40; 41; 32; 123; 125; 10; 125] [NotTopLevel] = true.
Proof. vm_compute. reflexivity. Qed.
Example TestResourceDefinitionValidation_90 : expect_issues Basic (mkopts false false false false false true no_letter) [100; 101; 102; 105; 110; 101; 32; 102; 111; 111; 40; 36; 97; 44; 32; 42; 36; 98; 41; 32; 123; 10; 125] [CapturesRestNotSupported] = true.
Proof. vm_compute. reflexivity. Qed.
Example TestResourceDefinitionValidation_91 : expect_issues Basic (mkopts false false false false false true no_letter) [100; 101; 102; 105; 110; 101; 32; 102; 111; 111; 40; 36; 116; 105; 116; 108; 101; 44; 32; 36; 98; 41; 32; 123; 10; 125] [ReservedParameter] = true.
Proof. vm_compute. reflexivity. Qed.
Example TestResourceDefinitionValidation_92 : expect_issues Basic (mkopts false false false false false true no_letter) [100; 101; 102; 105; 110; 101; 32; 102; 111; 111; 40; 36; 110; 97; 109; 101; 44; 32; 36; 98; 41; 32; 123; 10; 125] [ReservedParameter] = true.
Proof. vm_compute. reflexivity. Qed.
Example TestResourceDefinitionValidation_93 : expect_issues Basic (mkopts false false false false false true no_letter) [100; 101; 102; 105; 110; 101; 32; 102; 111; 111; 40; 36; 97; 41; 32; 123; 10; 32; 32; 91; 36; 97; 93; 10; 125] [IdemNotAllowedLast] = true.
Proof. vm_compute. reflexivity. Qed.
Example TestResourceDefinitionValidation_94 : expect_issues Basic (mkopts false false false false false true no_letter) [100; 101; 102; 105; 110; 101; 32; 118; 97; 114; 105; 97; 110; 116; 40; 41; 32; 123; 10; 125] [ReservedTypeName] = true.
Proof. vm_compute. reflexivity. Qed.
Example TestResourceDefinitionValidation_95 : expect_issues Basic (mkopts false false false false false true no_letter) [100; 101; 102; 105; 110; 101; 32; 70; 111; 111; 40; 41; 32; 123; 10; 125] [IllegalDefinitionName] = true.
Proof. vm_compute. reflexivity. Qed.
Example TestRelationshipValidation_96 : expect_issues Basic (mkopts false false false false false true no_letter) [112; 97; 99; 107; 97; 103; 101; 32; 123; 32; 39; 111; 112; 101; 110; 115; 115; 104; 45; 115; 101; 114; 118; 101; 114; 39; 58; 10; 32; 32; 101; 110; 115; 117; 114; 101; 32; 61; 62; 32; 112; 114; 101; 115; 101; 110; 116; 44; 10; 125; 32; 45; 62; 10; 102; 105; 108; 101; 32; 123; 32; 39; 47; 101; 116; 99; 47; 115; 115; 104; 47; 115; 115; 104; 100; 95; 99; 111; 110; 102; 105; 103; 39; 58; 10; 32; 32; 101; 110; 115; 117; 114; 101; 32; 61; 62; 32; 102; 105; 108; 101; 44; 10; 32; 32; 109; 111; 100; 101; 32; 32; 32; 61; 62; 32; 39; 48; 54; 48; 48; 39; 44; 10; 32; 32; 115; 111; 117; 114; 99; 101; 32; 61; 62; 32; 39; 112; 117; 112; 112; 101; 116; 58; 47; 47; 47; 109; 111; 100; 117; 108; 101; 115; 47; 115; 115; 104; 100; 47; 115; 115; 104; 100; 95; 99; 111; 110; 102; 105; 103; 39; 44; 10; 125] [] = true.
Proof. vm_compute. reflexivity. Qed.
Example TestRelationshipValidation_97 : expect_issues Basic (mkopts false false false false false true no_letter) [112; 97; 99; 107; 97; 103; 101; 32; 123; 32; 39; 111; 112; 101; 110; 115; 115; 104; 45; 115; 101; 114; 118; 101; 114; 39; 58; 10; 32; 32; 101; 110; 115; 117; 114; 101; 32; 61; 62; 32; 112; 114; 101; 115; 101; 110; 116; 44; 10; 125; 32; 45; 62; 10; 110; 111; 100; 101; 32; 101; 120; 97; 109; 112; 108; 101; 46; 99; 111; 109; 32; 123; 125] [NotRvalue; NotTopLevel] = true.
Proof. vm_compute. reflexivity. Qed.
Example TestRelationshipValidation_98 : expect_issues Basic (mkopts false false false false false true no_letter) [99; 108; 97; 115; 115; 32; 109; 121; 95; 99; 108; 97; 115; 115; 32; 123; 125; 32; 45; 62; 10; 112; 97; 99; 107; 97; 103; 101; 32; 123; 32; 39; 111; 112; 101; 110; 115; 115; 104; 45; 115; 101; 114; 118; 101; 114; 39; 58; 10; 32; 32; 101; 110; 115; 117; 114; 101; 32; 61; 62; 32; 112; 114; 101; 115; 101; 110; 116; 44; 10; 125] [NotRvalue; NotTopLevel] = true.
Proof. vm_compute. reflexivity. Qed.
Example TestResourceBodyValidation_99 : expect_issues Basic (mkopts false false false false false true no_letter) [102; 105; 108; 101; 32; 123; 32; 39; 47; 116; 109; 112; 47; 102; 111; 111; 39; 58; 10; 32; 32; 101; 110; 115; 117; 114; 101; 32; 61; 62; 32; 102; 105; 108; 101; 44; 10; 32; 32; 42; 32; 61; 62; 32; 36; 102; 105; 108; 101; 95; 111; 119; 110; 101; 114; 115; 104; 105; 112; 10; 125] [] = true.
Proof. vm_compute. reflexivity. Qed.
Example TestResourceBodyValidation_100 : expect_issues Basic (mkopts false false false false false true no_letter) [102; 105; 108; 101; 32; 123; 32; 39; 47; 116; 109; 112; 47; 102; 111; 111; 39; 58; 10; 32; 32; 101; 110; 115; 117; 114; 101; 32; 61; 62; 32; 102; 105; 108; 101; 44; 10; 32; 32; 42; 32; 61; 62; 32; 36; 102; 105; 108; 101; 95; 111; 119; 110; 101; 114; 115; 104; 105; 112; 44; 10; 32; 32; 42; 32; 61; 62; 32; 36; 102; 105; 108; 101; 95; 109; 111; 100; 101; 95; 99; 111; 110; 116; 101; 110; 116; 10; 125] [MultipleAttributesUnfold] = true.
Proof. vm_compute. reflexivity. Qed.
Example TestResourceValidation_101 : expect_issues Basic (mkopts false false false false false true no_letter) (lit "class { my: message => 'syntax ok' }") [] = true.
Proof. vm_compute. reflexivity. Qed.
Example TestResourceValidation_102 : expect_issues Basic (mkopts false false false false false true no_letter) (lit "@foo { my: message => 'syntax ok' }") [] = true.
Proof. vm_compute. reflexivity. Qed.
Example TestResourceValidation_103 : expect_issues Basic (mkopts false false false false false true no_letter) (lit "@@foo { my: message => 'syntax ok' }") [] = true.
Proof. vm_compute. reflexivity. Qed.
Example TestResourceValidation_104 : expect_issues Basic (mkopts false false false false false true no_letter) (lit "@class { my: message => 'syntax ok' }") [NotVirtualizable] = true.
Proof. vm_compute. reflexivity. Qed.
Example TestResourceValidation_105 : expect_issues Basic (mkopts false false false false false true no_letter) (lit "@@class { my: message => 'syntax ok' }") [NotVirtualizable] = true.
Proof. vm_compute. reflexivity. Qed.
Example TestResourceDefaultValidation_106 : expect_issues Basic (mkopts false false false false false true no_letter) (lit "Something { message => 'syntax ok' }") [] = true.
Proof. vm_compute. reflexivity. Qed.
Example TestResourceDefaultValidation_107 : expect_issues Basic (mkopts false false false false false true no_letter) (lit "@Something { message => 'syntax ok' }") [NotVirtualizable] = true.
Proof. vm_compute. reflexivity. Qed.
Example TestResourceDefaultValidation_108 : expect_issues Basic (mkopts false false false false false true no_letter) (lit "@@Something { message => 'syntax ok' }") [NotVirtualizable] = true.
Proof. vm_compute. reflexivity. Qed.
Example TestResourceOverrideValidation_109 : expect_issues Basic (mkopts false false false false false true no_letter) (lit "Something['here'] { message => 'syntax ok' }") [] = true.
Proof. vm_compute. reflexivity. Qed.
Example TestResourceOverrideValidation_110 : expect_issues Basic (mkopts false false false false false true no_letter) (lit "@Something['here'] { message => 'syntax ok' }") [NotVirtualizable] = true.
Proof. vm_compute. reflexivity. Qed.
Example TestResourceOverrideValidation_111 : expect_issues Basic (mkopts false false false false false true no_letter) (lit "@@Something['here'] { message => 'syntax ok' }") [NotVirtualizable] = true.
Proof. vm_compute. reflexivity. Qed.
Example TestNodeDefinitionValidation_112 : expect_issues Basic (mkopts false false false false false true no_letter) (lit "node foo {}") [] = true.
Proof. vm_compute. reflexivity. Qed.
Example TestNodeDefinitionValidation_113 : expect_issues Basic (mkopts false false false false false true no_letter) (lit "node 'foo' {}") [] = true.
Proof. vm_compute. reflexivity. Qed.
Example TestNodeDefinitionValidation_114 : expect_issues Basic (mkopts false false false false false true no_letter) (lit "node ""foo"" {}") [] = true.
Proof. vm_compute. reflexivity. Qed.
Example TestNodeDefinitionValidation_115 : expect_issues Basic (mkopts false false false false false true no_letter) (lit "node MyNode {}") [] = true.
Proof. vm_compute. reflexivity. Qed.
Example TestNodeDefinitionValidation_116 : expect_issues Basic (mkopts false false false false false true no_letter) (lit "node 192.168.0.10 {}") [] = true.
Proof. vm_compute. reflexivity. Qed.
Example TestNodeDefinitionValidation_117 : expect_issues Basic (mkopts false false false false false true no_letter) (lit "node /.*\.example\.com/ {}") [] = true.
Proof. vm_compute. reflexivity. Qed.
Example TestNodeDefinitionValidation_118 : expect_issues Basic (mkopts false false false false false true no_letter) (lit "node example.com {}") [] = true.
Proof. vm_compute. reflexivity. Qed.
Example TestNodeDefinitionValidation_119 : expect_issues Basic (mkopts false false false false false true no_letter) (lit "node 'bad char' {}") [IllegalHostnameChars] = true.
Proof. vm_compute. reflexivity. Qed.
Example TestNodeDefinitionValidation_120 : expect_issues Basic (mkopts false false false false false true no_letter) (lit "node ""bad char"" {}") [IllegalHostnameChars] = true.
Proof. vm_compute. reflexivity. Qed.
Example TestNodeDefinitionValidation_121 : expect_issues Basic (mkopts false false false false false true no_letter) (lit "node ""not${here}"" {}") [IllegalHostnameInterpolation] = true.
Proof. vm_compute. reflexivity. Qed.
Example TestReservedWordValidation_122 : expect_issues Basic (mkopts false false false false false true no_letter) (lit "$x = private") [ReservedWord] = true.
Proof. vm_compute. reflexivity. Qed.
Example TestSelectorExpressionValidation_123 : expect_issues Basic (mkopts false false false false false true no_letter) [36; 114; 111; 108; 101; 32; 61; 32; 36; 102; 97; 99; 116; 115; 91; 39; 111; 115; 39; 93; 91; 39; 110; 97; 109; 101; 39; 93; 32; 63; 32; 123; 10; 32; 32; 39; 83; 111; 108; 97; 114; 105; 115; 39; 32; 32; 32; 32; 32; 32; 32; 32; 32; 32; 32; 61; 62; 32; 114; 111; 108; 101; 58; 58; 115; 111; 108; 97; 114; 105; 115; 44; 10; 32; 32; 39; 82; 101; 100; 72; 97; 116; 39; 32; 32; 32; 32; 32; 32; 32; 32; 32; 32; 32; 32; 61; 62; 32; 114; 111; 108; 101; 58; 58; 114; 101; 100; 104; 97; 116; 44; 10; 32; 32; 47; 94; 40; 68; 101; 98; 105; 97; 110; 124; 85; 98; 117; 110; 116; 117; 41; 36; 47; 32; 61; 62; 32; 114; 111; 108; 101; 58; 58; 100; 101; 98; 105; 97; 110; 44; 10; 32; 32; 100; 101; 102; 97; 117; 108; 116; 32; 32; 32; 32; 32; 32; 32; 32; 32; 32; 32; 32; 32; 61; 62; 32; 114; 111; 108; 101; 58; 58; 103; 101; 110; 101; 114; 105; 99; 44; 10; 125] [] = true.
Proof. vm_compute. reflexivity. Qed.
Example TestSelectorExpressionValidation_124 : expect_issues Basic (mkopts false false false false false true no_letter) [36; 114; 111; 108; 101; 32; 61; 32; 36; 102; 97; 99; 116; 115; 91; 39; 111; 115; 39; 93; 91; 39; 110; 97; 109; 101; 39; 93; 32; 63; 32; 123; 10; 32; 32; 39; 83; 111; 108; 97; 114; 105; 115; 39; 32; 32; 32; 32; 32; 32; 32; 32; 32; 32; 32; 61; 62; 32; 114; 111; 108; 101; 58; 58; 115; 111; 108; 97; 114; 105; 115; 44; 10; 32; 32; 100; 101; 102; 97; 117; 108; 116; 32; 32; 32; 32; 32; 32; 32; 32; 32; 32; 32; 32; 32; 61; 62; 32; 114; 111; 108; 101; 58; 58; 103; 101; 110; 101; 114; 105; 99; 44; 10; 32; 32; 39; 82; 101; 100; 72; 97; 116; 39; 32; 32; 32; 32; 32; 32; 32; 32; 32; 32; 32; 32; 61; 62; 32; 114; 111; 108; 101; 58; 58; 114; 101; 100; 104; 97; 116; 44; 10; 32; 32; 100; 101; 102; 97; 117; 108; 116; 32; 32; 32; 32; 32; 32; 32; 32; 32; 32; 32; 32; 32; 61; 62; 32; 114; 111; 108; 101; 58; 58; 103; 101; 110; 101; 114; 105; 99; 44; 10; 125] [DuplicateDefault] = true.
Proof. vm_compute. reflexivity. Qed.
Example TestTypeAliasValidation_125 : expect_issues Basic (mkopts false false false false false true no_letter) (lit "type MyType = Integer") [] = true.
Proof. vm_compute. reflexivity. Qed.
Example TestTypeAliasValidation_126 : expect_issues Basic (mkopts false false false false false true no_letter) (lit "type MyType = Variant[Integer, String]") [] = true.
Proof. vm_compute. reflexivity. Qed.
Example TestTypeAliasValidation_127 : expect_issues Basic (mkopts false false false false false true no_letter) (lit "type Variant = MyType") [ReservedTypeName] = true.
Proof. vm_compute. reflexivity. Qed.
Example TestTypeAliasValidation_128 : expect_issues Basic (mkopts false false false false false true no_letter) (lit "type ::MyType = Integer") [IllegalDefinitionName] = true.
Proof. vm_compute. reflexivity. Qed.
Example TestTypeMappingValidation_129 : expect_issues Basic (mkopts false false false false false true no_letter) (lit "type Runtime[ruby, 'MyModule::MyObject'] = MyPackage::MyObject") [] = true.
Proof. vm_compute. reflexivity. Qed.
Example TestTypeMappingValidation_130 : expect_issues Basic (mkopts false false false false false true no_letter) (lit "type Runtime[ruby, [/^MyPackage::(\w+)$/, 'MyModule::\1']] = [/^MyModule::(\w+)$/, 'MyPackage::\1']") [] = true.
Proof. vm_compute. reflexivity. Qed.
Example TestTypeMappingValidation_131 : expect_issues Basic (mkopts false false false false false true no_letter) (lit "type Runtime[ruby, [/^MyPackage::(\w+)$/, 'MyModule::\1']] = MyPackage::MyObject") [IllegalRegexpTypeMapping] = true.
Proof. vm_compute. reflexivity. Qed.
Example TestTypeMappingValidation_132 : expect_issues Basic (mkopts false false false false false true no_letter) (lit "type Runtime[ruby, 'MyModule::MyObject'] = [/^MyModule::(\w+)$/, 'MyPackage::\1']") [IllegalSingleTypeMapping] = true.
Proof. vm_compute. reflexivity. Qed.
Example TestTypeMappingValidation_133 : expect_issues Basic (mkopts false false false false false true no_letter) (lit "type Runtime[ruby, [/^MyPackage::(\w+)$/, 'MyModule::\1']] = $x") [IllegalRegexpTypeMapping] = true.
Proof. vm_compute. reflexivity. Qed.
Example TestTypeMappingValidation_134 : expect_issues Basic (mkopts false false false false false true no_letter) (lit "type Runtime[ruby, 'MyModule::MyObject'] = $x") [IllegalSingleTypeMapping] = true.
Proof. vm_compute. reflexivity. Qed.
Example TestTypeMappingValidation_135 : expect_issues Basic (mkopts false false false false false true no_letter) (lit "type Pattern[/^MyPackage::(\w+)$/, 'MyModule::\1'] = [/^MyModule::(\w+)$/, 'MyPackage::\1']") [UnsupportedExpression] = true.
Proof. vm_compute. reflexivity. Qed.
Example TestTasksResourceValidation_136 : expect_issues Tasks (mkopts false false false true false true no_letter) (lit "class { my: message => 'syntax ok' }") [CatalogOperationNotSupported] = true.
Proof. vm_compute. reflexivity. Qed.
Example TestTasksResourceValidation_137 : expect_issues Tasks (mkopts false false false true false true no_letter) (lit "foo { my: message => 'syntax ok' }") [CatalogOperationNotSupported] = true.
Proof. vm_compute. reflexivity. Qed.
Example TestTasksResourceValidation_138 : expect_issues Tasks (mkopts false false false true false true no_letter) (lit "@foo { my: message => 'syntax ok' }") [CatalogOperationNotSupported] = true.
Proof. vm_compute. reflexivity. Qed.
Example TestTasksResourceValidation_139 : expect_issues Tasks (mkopts false false false true false true no_letter) (lit "@@foo { my: message => 'syntax ok' }") [CatalogOperationNotSupported] = true.
Proof. vm_compute. reflexivity. Qed.
Example TestTasksResourceValidation_140 : expect_issues Tasks (mkopts false false false true false true no_letter) (lit "@class { my: message => 'syntax ok' }") [CatalogOperationNotSupported] = true.
Proof. vm_compute. reflexivity. Qed.
Example TestTasksResourceValidation_141 : expect_issues Tasks (mkopts false false false true false true no_letter) (lit "@@class { my: message => 'syntax ok' }") [CatalogOperationNotSupported] = true.
Proof. vm_compute. reflexivity. Qed.
Example TestWorkflowResourceValidation_142 : expect_issues Workflow (mkopts false false false false true true no_letter) (lit "class { my: message => 'syntax ok' }") [CatalogOperationNotSupported] = true.
Proof. vm_compute. reflexivity. Qed.
Example TestWorkflowResourceValidation_143 : expect_issues Workflow (mkopts false false false false true true no_letter) (lit "foo { my: message => 'syntax ok' }") [CatalogOperationNotSupported] = true.
Proof. vm_compute. reflexivity. Qed.
Example TestWorkflowResourceValidation_144 : expect_issues Workflow (mkopts false false false false true true no_letter) (lit "@foo { my: message => 'syntax ok' }") [CatalogOperationNotSupported] = true.
Proof. vm_compute. reflexivity. Qed.
Example TestWorkflowResourceValidation_145 : expect_issues Workflow (mkopts false false false false true true no_letter) (lit "@@foo { my: message => 'syntax ok' }") [CatalogOperationNotSupported] = true.
Proof. vm_compute. reflexivity. Qed.
Example TestWorkflowResourceValidation_146 : expect_issues Workflow (mkopts false false false false true true no_letter) (lit "@class { my: message => 'syntax ok' }") [CatalogOperationNotSupported] = true.
Proof. vm_compute. reflexivity. Qed.
Example TestWorkflowResourceValidation_147 : expect_issues Workflow (mkopts false false false false true true no_letter) (lit "@@class { my: message => 'syntax ok' }") [CatalogOperationNotSupported] = true.
Proof. vm_compute. reflexivity. Qed.
Example TestWorkflowResourceValidation_148 : expect_issues Workflow (mkopts false false false false true true no_letter) (lit "workflow foo {}") [] = true.
Proof. vm_compute. reflexivity. Qed.
