(** * SpecTemplate: writing strings that contain variables and expressions

    Nothing here refers to tokens or to the parser. *)
From Verif Require Import Base Float Tokens Ast Ctx SpecLex SpecManifest SpecOps.

Inductive segment : Set :=
| SText (rs : list Z)        (* text *)
| SVar (w : str)             (* $w *)
| SName (w : str)            (* ${w} *)
| SOps (t : optree).         (* ${ operator expression } *)
Definition segment_text (p : segment) : str :=
  match p with
  | SText rs => encode (in_double_quotes rs)
  | SVar w => "$"%ch :: w
  | SName w => lit "${" ++ w ++ lit "}"
  | SOps t => lit "${ " ++ written t ++ lit " }"
  end.
(** the string with these segments *)
Definition template_text (ps : list segment) : str := """"%ch :: flat_map segment_text ps ++ [""""%ch].
Definition segment_tree (p : segment) : expr :=
  match p with
  | SText rs => EString (mkpos 0 0) (encode rs)
  | SVar w | SName w => EUn (mkpos 0 0) KText (EUn (mkpos 0 0) KVariable (EQName (mkpos 0 0) w))
  | SOps t => EUn (mkpos 0 0) KText (tree_of t)
  end.
(** What is written after [$w] must not look like more of the name.  Texts are
    not empty and there are no two in a row. *)
Fixpoint template (ps : list segment) : Prop :=
  match ps with
  | [] => True
  | p :: rest =>
    match p with
    | SText rs => rs <> [] /\ Forall (fun r => valid_rune r = true) rs /\ match rest with SText _ :: _ => False | _ => True end
    | SVar w => qualified lower w /\ ~ In w (map lit reserved_words) /\ ~ clash TIdentifier w (flat_map segment_text rest ++ [""""%ch])
    | SName w => qualified lower w /\ ~ In w (map lit reserved_words)
    | SOps t => legal t
    end /\ template rest
  end.
(** there is a segment that is not text *)
Definition interpolated (ps : list segment) : Prop := exists p, In p ps /\ match p with SText _ => False | _ => True end.
