(** * SpecToPN: when a tree can be turned into PN (C19) *)
From Verif Require Import Base Ast SpecVisit SpecValidate.

(** a name that may be the key of a PN map: letters, digits, '_' and '-', not
    starting with a digit *)
Definition pn_key_char (c : Z) : Prop :=
  ("a"%ch <= c <= "z"%ch) \/ ("A"%ch <= c <= "Z"%ch) \/ c = "_"%ch \/ c = "-"%ch.
Definition pn_key (s : str) : Prop :=
  exists c r, s = c :: r /\ pn_key_char c
    /\ Forall (fun x => pn_key_char x \/ ("0"%ch <= x <= "9"%ch)) r.

(** a parameter that is a parameter with such a name *)
Definition good_param (e : expr) : Prop := exists p n v t r, e = EParam p n v t r /\ pn_key n.
(** What ToPN needs of one node: parameters of definitions and lambdas, and
    what a variable holds. *)
Definition pn_ready_here (d : expr) : Prop :=
  match d with
  | EDef _ _ _ ps _ | EFunc _ _ _ ps _ _ | ELambda _ ps _ _ => Forall good_param ps
  | EUn _ KVariable x => (exists p n, x = EQName p n) \/ (exists p r z, x = EInt p r z)
  | _ => True
  end.
Definition pn_ready (e : expr) : Prop := forall anc d, node_at e anc d -> pn_ready_here d.
