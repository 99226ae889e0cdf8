(** * SpecSteps: workflows written out

    Steps with their properties, and with what they do: nothing (an action), the
    state of a resource, or the steps of a workflow.  [flow_words] is how they are
    written, [flow_tree] what they mean.  Nothing here refers to tokens or to the
    parser. *)
From Verif Require Import Base Float Tokens Ast Ctx SpecLex SpecManifest SpecOps.
Definition no_pos : pos := mkpos 0 0.
(** a value is a variable or a number *)
Inductive given : Set := Var (w : str) | Number (n : Z).
Definition settings := list (str * given).
Inductive flow : Set :=
| Action (n : str) (ps : settings)
| Resource (n : str) (ps state : settings)
| Workflow (n : str) (ps : settings) (steps : list flow).
(** ** The words *)
Definition given_word (v : given) : str := match v with Var w => "$"%ch :: w | Number n => decimal_text n end.
Fixpoint settings_words (l : settings) : list str :=
  match l with
  | [] => []
  | [(n, v)] => [n; lit "=>"; given_word v]
  | (n, v) :: rest => [n; lit "=>"; given_word v; lit ","] ++ settings_words rest
  end.
Definition step_words (style : string) (n : str) (ps : settings) (inside : list str) : list str :=
  [lit style; n; lit "{"] ++ settings_words ps ++ [lit "}"; lit "{"] ++ inside ++ [lit "}"].
Fixpoint flow_words (f : flow) : list str :=
  match f with
  | Action n ps => step_words "action" n ps []
  | Resource n ps state => step_words "resource" n ps (settings_words state)
  | Workflow n ps steps => step_words "workflow" n ps (flat_map flow_words steps)
  end.
(** ** The trees *)
Definition variable (w : str) : expr := EUn no_pos KVariable (EQName no_pos w).
Definition given_tree (v : given) : expr := match v with Var w => variable w | Number n => EInt no_pos 10 n end.
(** the value of a variable in the state of a resource is taken later:
    [Deferred.new("$w")] *)
Definition deferred_tree (v : given) : expr :=
  match v with
  | Var w => ECallMethod no_pos true (EBin no_pos KNamedAccess [] (EQRef no_pos (lit "Deferred")) (EQName no_pos (lit "new"))) [EString no_pos ("$"%ch :: w)] None
  | Number n => EInt no_pos 10 n
  end.
Definition settings_tree (f : given -> expr) (l : settings) : option expr :=
  match l with [] => None | _ => Some (EHash no_pos (map (fun p => EKeyed no_pos (EQName no_pos (fst p)) (f (snd p))) l)) end.
(** [outer] are the names of the workflows around *)
Fixpoint flow_tree (outer : list str) (f : flow) : expr :=
  let name n := join (lit "::") (outer ++ [n]) in
  match f with
  | Action n ps => EStep no_pos (name n) SAction (settings_tree given_tree ps) (Some (EBlock no_pos []))
  | Resource n ps state => EStep no_pos (name n) SResource (settings_tree given_tree ps) (settings_tree deferred_tree state)
  | Workflow n ps steps => EStep no_pos (name n) SWorkflow (settings_tree given_tree ps)
      (match steps with [] => None | _ => Some (EBlock no_pos (map (flow_tree (outer ++ [n])) steps)) end)
  end.
(** ** What may be written *)
Definition plain_name (n : str) : Prop := qualified lower n /\ ~ In n (map lit reserved_words).
Definition proper_given (v : given) : Prop := match v with Var w => qualified lower w | Number n => 0 <= n < 2 ^ 63 end.
Definition proper_setting (p : str * given) : Prop := plain_name (fst p) /\ proper_given (snd p).
(** [parameters] and [returns] have a syntax of their own *)
Definition proper_property (p : str * given) : Prop := proper_setting p /\ fst p <> lit "parameters" /\ fst p <> lit "returns".
Fixpoint proper_flow (f : flow) : Prop :=
  match f with
  | Action n ps => plain_name n /\ Forall proper_property ps
  | Resource n ps state => plain_name n /\ Forall proper_property ps /\ Forall proper_setting state
  | Workflow n ps steps => plain_name n /\ Forall proper_property ps /\ fold_right (fun f P => proper_flow f /\ P) True steps
  end.
