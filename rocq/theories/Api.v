(** * Api: Parse's outcome, ParserValidator and the command line

    parser/parser.go:162-193 (Parse and its recover), validator/validator.go:
    162-187 (parserValidator), parse/parser.go (main). *)
From Verif Require Import Base Float Tokens Ast Pn ToPN Ctx Locator Lexer Parser Literal Visit Validator.

(** What a caller of Parse sees.  [PReported] is an issue.Reported,
    [PParseError] a *parseError (both returned as err, parser.go:176-185);
    [PCrash]: the panic escapes.  [PFuel]: the model ran out of fuel. *)
Inductive presult : Set :=
| POk (e : expr)
| PReported (e : err)
| PParseError (off : Z)
| PCrash (s : psite)
| PFuel.
Definition to_presult (r : res expr) : presult :=
  match r with
  | Ok e _ => POk e
  | Err (Issue c a off) _ => PReported (Issue c a off)
  | Err (IssueAt c l p) _ => PReported (IssueAt c l p)
  | Err (ParseErr off) _ => PParseError off
  | Err (GoPanic s) _ => PCrash s
  | Fuel => PFuel
  end.
(** CreateParser(opts).Parse(_, source, single) *)
Definition parse (fuel : nat) (o : opts) (source : str) (single : bool) : presult :=
  to_presult (parse_run fuel (createParser o) source single).

(** ParserValidator.Parse (validator.go:170-187): the expression and the
    result's issues, or a panic *)
Inductive pvresult : Set :=
| PvParseIssue (e : err)                       (* (nil, result with that issue) *)
| PvOk (e : expr)                              (* (expr, nil) *)
| PvIssues (e : expr) (l : list vissue)        (* (expr, result) *)
| PvCrash                                      (* panic *)
| PvFuel.
Definition parserValidator (k : checker) (s : strictness) (r : presult) (source : str) : pvresult :=
  match r with
  | PReported e => PvParseIssue e
  | PParseError _ => PvCrash
  | PCrash _ => PvCrash
  | PFuel => PvFuel
  | POk e =>
    match validate k source s e with
    | inl [] => PvOk e
    | inl l => PvIssues e l
    | inr _ => PvCrash
    end
  end.

(** main (parse/parser.go:27-121) after the file has been read.  The texts
    written to standard error and the JSON encoding are left out: what is kept
    is the exit status, the issues and the PN that is printed.  Rendering an
    issue asks for its line, which panics on text that is not valid UTF-8; this
    too is left out. *)
Record cliopts := mkcli { cli_validateOnly : bool; cli_strict : strictness; cli_tasks : bool;
                          cli_workflow : bool; cli_epp : bool }.
Definition cli_parseopts (c : cliopts) (isL : Z -> bool) : opts :=
  mkopts (cli_epp c) false false (cli_tasks c) (cli_workflow c) true isL.
Inductive cliout : Set :=
| Exit (status : Z) (parseError : bool) (issues : list vissue) (ast : option pn)
| CliCrash
| CliFuel.
Definition severity_num (s : severity) : Z :=
  match s with SevIgnore => 1 | SevDeprecation => 2 | SevWarning => 3 | SevError => 4 end.
Definition maxSeverity (l : list vissue) : Z :=      (* parse/parser.go:76-83, 105-111 *)
  fold_left (fun m i => if m <? severity_num (i_sev i) then severity_num (i_sev i) else m) l 1.
Definition cli (fuel : nat) (c : cliopts) (isL : Z -> bool) (source : str) : cliout :=
  match parse fuel (cli_parseopts c isL) source false with
  | PFuel => CliFuel
  | PCrash _ => CliCrash
  | PReported _ | PParseError _ => Exit 1 true [] None
  | POk e =>
    match validatePuppet source (cli_strict c) e with
    | inr _ => CliCrash
    | inl issues =>
      if maxSeverity issues =? severity_num SevError then Exit 1 false issues None
      else if cli_validateOnly c then Exit 0 false issues None
      else match toPN e with Some q => Exit 0 false issues (Some q) | None => CliCrash end
    end
  end.
