(** * What a float literal denotes

    A specification of rounding to float64 in terms of rational numbers,
    independent of the algorithm in Float.v. *)
From Verif Require Import Base Float SpecLex.
From Coq Require Import QArith Qabs.
Local Open Scope Z_scope.

(** the finite float64 that are not negative: [m * 2^e] *)
Definition representable (m e : Z) : Prop :=
  (m = 0 /\ e = 0) \/ (2 ^ 52 <= m < 2 ^ 53 /\ -1074 <= e <= 971) \/ (0 < m < 2 ^ 52 /\ e = -1074).
Definition amount (m e : Z) : Q := (inject_Z m * 2 ^ e)%Q.

(** half way between the greatest float64 and the next power of two *)
Definition overflow : Q := (2 ^ 1024 - 2 ^ 970)%Q.

(** [nearest v f]: [f] is the float64 closest to [v]; between two that are
    equally close, the one with an even mantissa; from [overflow] on, infinity *)
Definition nearest (v : Q) (f : f64) : Prop :=
  match f with
  | Fin neg m e =>
    neg = false /\ representable m e /\ (v < overflow)%Q /\
    forall m' e', representable m' e' ->
      (Qabs (v - amount m e) <= Qabs (v - amount m' e'))%Q /\
      ((Qabs (v - amount m e) == Qabs (v - amount m' e'))%Q -> (amount m e == amount m' e')%Q \/ Z.even m = true)
  | Inf neg => neg = false /\ (overflow <= v)%Q
  end.

(** the number that digits, a fraction and an exponent denote *)
Definition number (ds fs : list Z) (x : Z) : Q := (inject_Z (value 10 (ds ++ fs)) * 10 ^ (x - zlen fs))%Q.

(** [written x s]: [s] is a way of writing the exponent [x], or nothing *)
Inductive exponent_of : Z -> str -> Prop :=
| exp_none : exponent_of 0 []
| exp_some e sign ds : e = "e"%ch \/ e = "E"%ch -> sign = [] \/ sign = ["-"%ch] \/ sign = ["+"%ch] ->
    Forall (fun d => 0 <= d <= 9) ds -> ds <> [] ->
    exponent_of (if list_eq_dec Z.eq_dec sign ["-"%ch] then - value 10 ds else value 10 ds) (e :: sign ++ decimals ds).
(** a fraction, or nothing *)
Definition fraction (fs : list Z) : str := match fs with [] => [] | _ => "."%ch :: decimals fs end.

(** [y] is [x] without some of the zeros at its end: what remains of the
    exponent in the text that PN writes *)
Definition shortened (x y : Z) : Prop := y = x \/ exists k, 0 < k /\ x = y * 10 ^ k.
