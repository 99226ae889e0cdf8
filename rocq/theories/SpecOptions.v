(** * SpecOptions: what a source must not contain for an option to be idle *)
From Verif Require Import Base Ctx.

(** the bytes [w] stand somewhere in [t] *)
Definition contains (w t : str) : Prop := exists a b, t = a ++ w ++ b.

(** Two sets of options that may differ in backticked strings, hexadecimal
    escapes, tasks and workflows, but for a given source only if it has nothing
    in it that the option is about: no backtick, no [\x], no [plan], and none
    of the four words that begin a step. *)
Definition idle (o o' : opts) (t : str) : Prop :=
  o_epp o = o_epp o' /\ o_factory o = o_factory o' /\ o_isLetter o = o_isLetter o'
  /\ (o_backtick o = o_backtick o' \/ ~ contains (lit "`") t)
  /\ (o_hex o = o_hex o' \/ ~ contains (lit "\x") t)
  /\ (o_tasks o = o_tasks o' \/ ~ contains (lit "plan") t)
  /\ (o_workflow o = o_workflow o'
      \/ ~ contains (lit "action") t /\ ~ contains (lit "resource") t
         /\ ~ contains (lit "stateHandler") t /\ ~ contains (lit "workflow") t).
