(** * Visit: the visitors (expression.go:656-688 and the AllContents/Contents
      methods)

    A visit is the list of calls made to the PathVisitor: the path and the
    node.  Paths are nearest ancestor first (the Go slice reversed).  The Go
    slices of different calls may share their backing array; a visitor that
    keeps a path beyond its call can see it change, which this model leaves
    out. *)
From Verif Require Import Base Float Ast.

Definition path := list expr.

(** Contents: ShallowVisit(e, path, visitor, children) *)
Definition contents (p : path) (e : expr) : list (path * expr) :=
  map (fun c => (e :: p, c)) (children e).

(** AllContents: DeepVisit(e, path, visitor, children).  The recursion is on
    the height of the tree. *)
Fixpoint deepVisit (n : nat) (p : path) (e : expr) : list (path * expr) :=
  match n with
  | O => []
  | S n' => flat_map (fun c => (e :: p, c) :: deepVisit n' (e :: p) c) (children e)
  end.
Definition allContents (p : path) (e : expr) : list (path * expr) := deepVisit (height e) p e.
