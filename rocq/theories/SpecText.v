(** * SpecText: characters, and the text of EPP templates *)
From Verif Require Import Base.

(** a rune the reader delivers: a scalar value that is not NUL or U+FFFD *)
Definition rune_ok (r : Z) : Prop := valid_rune r = true /\ r <> 65533 /\ r <> 0.


(** [starts_with s p]: the text [s] begins with [p] *)
Definition starts_with (s p : list Z) : Prop := exists s', s = p ++ s'.
(** The inside of a comment: it ends at the first [%>] that has no [%] directly
    before it. [prev] is the character before. *)
Fixpoint comment (prev : Z) (s : list Z) : Prop :=
  match s with
  | [] => prev <> "%"%ch
  | r :: s' => rune_ok r /\ ~ (r = "%"%ch /\ starts_with s' [">"%ch] /\ prev <> "%"%ch) /\ comment r s'
  end.
(** [epp_text src out]: the template [src] has no tags, and says [out].  [<%%]
    says [<%] and [%%>] says [%>]; comments say nothing; all else says itself.
    Percent signs are taken in pairs from the left. *)
Inductive epp_text : list Z -> list Z -> Prop :=
| et_nil : epp_text [] []
| et_open src out : epp_text src out -> epp_text ("<"%ch :: "%"%ch :: "%"%ch :: src) ("<"%ch :: "%"%ch :: out)
| et_close src out : epp_text src out -> epp_text ("%"%ch :: "%"%ch :: ">"%ch :: src) ("%"%ch :: ">"%ch :: out)
| et_pair src out : ~ starts_with src [">"%ch] -> epp_text src out -> epp_text ("%"%ch :: "%"%ch :: src) ("%"%ch :: "%"%ch :: out)
| et_comment body src out : comment "#"%ch body -> epp_text src out ->
    epp_text ("<"%ch :: "%"%ch :: "#"%ch :: body ++ "%"%ch :: ">"%ch :: src) out
| et_rune r src out : rune_ok r -> ~ starts_with (r :: src) ["<"%ch; "%"%ch] -> ~ starts_with (r :: src) ["%"%ch; "%"%ch] ->
    epp_text src out -> epp_text (r :: src) (r :: out).

(** ** Tags *)
(** spaces and tabs *)
Definition blanks (s : list Z) : Prop := Forall (fun c => c = 32 \/ c = 9) s.
(** [trimmed out out']: [out'] is [out] without the blanks at its end *)
Definition trimmed (out out' : list Z) : Prop :=
  exists b, out = out' ++ b /\ blanks b /\ (forall x c, out' = x ++ [c] -> c <> 32 /\ c <> 9).
(** [said src s out]: the text [src], if [s] comes after it, says [out].  A tag
    that begins with [<%-] removes the blanks before it. *)
Definition said (src s out : list Z) : Prop :=
  exists out0, epp_text src out0 /\ (starts_with s ["<"%ch; "%"%ch; "-"%ch] /\ trimmed out0 out \/ ~ starts_with s ["<"%ch; "%"%ch; "-"%ch] /\ out = out0).
(** [s] is the end of the source or begins with a tag *)
Definition tag_or_end (s : list Z) : Prop :=
  s = [] \/ exists s', s = "<"%ch :: "%"%ch :: s' /\ (s' = [] \/ exists c s'', s' = c :: s'' /\ 0 < c < 128 /\ c <> "%"%ch /\ c <> "#"%ch).
(** [closes cl s]: [cl] closes a tag, if [s] comes after it.  [-%>] removes the
    blanks after it and a newline. *)
Definition closes (cl s : list Z) : Prop :=
  cl = ["%"%ch; ">"%ch]
  \/ exists b, blanks b /\ (cl = "-"%ch :: "%"%ch :: ">"%ch :: b ++ [10]
       \/ cl = "-"%ch :: "%"%ch :: ">"%ch :: b /\ (forall c s', s = c :: s' -> c <> 32 /\ c <> 9 /\ c <> 10)).
