(** * Float: the float64 operations of the Go standard library in use

    strconv.ParseFloat (called at parser/lexer.go:979), strconv.FormatFloat
    (parser/parser.go:1684) and fmt's [%.16g]/[%.16e] (pn/pn.go:268-274).
    Everything is exact integer arithmetic on [Z]. *)
From Verif Require Import Base.

(** A float64 that the parser can produce: [(-1)^neg * m * 2^e] or infinity
    (NaN is never produced).  Canonical: [m = 0 /\ e = 0], or
    [2^52 <= m < 2^53] with [-1074 <= e <= 971], or [0 < m < 2^52] with
    [e = -1074]. *)
Inductive f64 : Type :=
| Fin (neg : bool) (m e : Z)
| Inf (neg : bool).

Definition f64_eqb (a b : f64) : bool :=
  match a, b with
  | Fin n m e, Fin n' m' e' => Bool.eqb n n' && (m =? m') && (e =? e')
  | Inf n, Inf n' => Bool.eqb n n'
  | _, _ => false
  end.

(** Go's [-x] *)
Definition f64_neg (x : f64) : f64 :=
  match x with Fin n m e => Fin (negb n) m e | Inf n => Inf (negb n) end.

(** [a / b] rounded to the nearest integer, ties to even ([a >= 0], [b > 0]). *)
Definition div_half_even (a b : Z) : Z :=
  let q := a / b in
  let r := a mod b in
  if 2 * r <? b then q
  else if b <? 2 * r then q + 1
  else if Z.even q then q else q + 1.

(** [num/den > 0] rounded to the nearest float64. *)
Definition round_f64 (neg : bool) (num den : Z) : f64 :=
  if num =? 0 then Fin neg 0 0 else
  let k := Z.log2 num - Z.log2 den in  (* 2^(k-1) < num/den < 2^(k+1) *)
  let e0 := Z.max (k - 53) (-1074) in
  let scaled e := (num * 2 ^ (Z.max 0 (- e)), den * 2 ^ (Z.max 0 e)) in
  let q0 := fst (scaled e0) / snd (scaled e0) in
  let e1 := if 2 ^ 53 <=? q0 then e0 + 1 else e0 in
  let m1 := div_half_even (fst (scaled e1)) (snd (scaled e1)) in
  let (m, e) := if m1 =? 2 ^ 53 then (2 ^ 52, e1 + 1) else (m1, e1) in
  if m =? 0 then Fin neg 0 0
  else if 971 <? e then Inf neg
  else Fin neg m e.

(** ** strconv.ParseFloat(s, 64), error ignored

    The parser calls it on text that starts with a digit.  A syntax error
    yields 0 and a range error infinity. *)
Fixpoint span_digits (s : str) : str * str :=
  match s with
  | c :: s' => if isDecimalDigit c then let (a, b) := span_digits s' in (c :: a, b) else ([], s)
  | [] => ([], [])
  end.
Definition dec_value (s : str) : Z :=
  match parse_digits 10 0 s with Some n => n | None => 0 end.
(** readFloat in strconv/atof.go: a written exponent takes no more digits once
    it is 10000 or more *)
Fixpoint exp_value (acc : Z) (s : str) : Z :=
  match s with
  | [] => acc
  | c :: s' => exp_value (if acc <? 10000 then acc * 10 + (c - "0"%ch) else acc) s'
  end.
Definition parse_exponent (s : str) : option Z :=
  match s with
  | [] => Some 0
  | c :: s' =>
    if (c =? "e"%ch) || (c =? "E"%ch) then
      let '(neg, s2) :=
        match s' with
        | d :: s'' => if d =? "-"%ch then (true, s'') else if d =? "+"%ch then (false, s'') else (false, s')
        | [] => (false, s')
        end in
      match s2 with
      | [] => None
      | _ :: _ => let (ds, rest) := span_digits s2 in
           match rest with
           | [] => Some (if neg then - exp_value 0 ds else exp_value 0 ds)
           | _ => None
           end
      end
    else None
  end.
Definition parse_decimal (s : str) : option (Z * Z) :=
  let (ip, r1) := span_digits s in
  let '(fp, r2) :=
    match r1 with
    | c :: r => if c =? "."%ch then span_digits r else ([], r1)
    | [] => ([], r1)
    end in
  match ip ++ fp with
  | [] => None
  | _ :: _ => match parse_exponent r2 with
       | Some x => Some (dec_value (ip ++ fp), x - zlen fp)
       | None => None
       end
  end.
(** [d * 10^x] as a float64 *)
Definition dec_to_f64 (d x : Z) : f64 :=
  if d =? 0 then Fin false 0 0
  else if 400 <? x then Inf false
  else if x + Z.log2 d <? -1500 then Fin false 0 0
  else if 0 <=? x then round_f64 false (d * 10 ^ x) 1
  else round_f64 false d (10 ^ (- x)).
Definition parse_float (s : str) : f64 :=
  match parse_decimal s with
  | Some (d, x) => dec_to_f64 d x
  | None => Fin false 0 0
  end.

(** ** Decimal conversion *)

(** decimal digits of a number, without trailing zeros ("trim") *)
Fixpoint drop_zeros (s : str) : str :=
  match s with c :: s' => if c =? "0"%ch then drop_zeros s' else s | [] => [] end.
Definition trim_zeros (s : str) : str := rev (drop_zeros (rev s)).

(** position of the decimal point: [10^(dp-1) <= num/den < 10^dp] *)
Fixpoint find_dp_small (fuel : nat) (num den : Z) (dp : Z) : Z :=
  match fuel with
  | O => dp
  | S f => if den <=? num * 10 then dp else find_dp_small f (num * 10) den (dp - 1)
  end.
Definition dec_point (num den : Z) : Z :=
  if den <=? num then zlen (format_nat (num / den))
  else find_dp_small 400 num den 0.

(** The value as a decimal: digits (trailing zeros trimmed) and decimal point. *)
Definition f64_ratio (m e : Z) : Z * Z :=
  if 0 <=? e then (m * 2 ^ e, 1) else (m, 2 ^ (- e)).
(** [n] significant digits of [num/den], given a rounding of the quotient *)
Definition digits_with (rnd : Z -> Z -> Z) (n : Z) (num den : Z) : str * Z :=
  let dp := dec_point num den in
  let k := n - dp in
  let q := if 0 <=? k then rnd (num * 10 ^ k) den else rnd num (den * 10 ^ (- k)) in
  let s := format_nat q in
  (trim_zeros s, if n <? zlen s then dp + 1 else dp).
Definition sig_digits (n : Z) (m e : Z) : str * Z :=
  if m =? 0 then ([], 0)
  else let (num, den) := f64_ratio m e in digits_with div_half_even n num den.

(** shortest digits that read back as the same float (strconv, prec -1) *)
Definition reads_back (m e : Z) (d : str * Z) : bool :=
  f64_eqb (dec_to_f64 (dec_value (fst d)) (snd d - zlen (fst d))) (Fin false m e).
Definition div_up (a b : Z) : Z := if a mod b =? 0 then a / b else a / b + 1.
Fixpoint shortest_from (fuel : nat) (n m e : Z) : str * Z :=
  match fuel with
  | O => sig_digits 17 m e
  | S f =>
    let (num, den) := f64_ratio m e in
    let dn := digits_with Z.div n num den in
    let up := digits_with div_up n num den in
    let nr := digits_with div_half_even n num den in
    if reads_back m e dn && reads_back m e up then nr
    else if reads_back m e dn then dn
    else if reads_back m e up then up
    else shortest_from f (n + 1) m e
  end.
Definition shortest_digits (m e : Z) : str * Z :=
  if m =? 0 then ([], 0) else shortest_from 17 1 m e.

(** strconv's fmtE and fmtF *)
Definition zeros (n : Z) : str := repeat "0"%ch (Z.to_nat n).
Definition fmt_exp (x : Z) : str :=
  let a := Z.abs x in
  (if x <? 0 then "-"%ch else "+"%ch) ::
  (if a <? 10 then "0"%ch :: format_nat a else format_nat a).
Definition fmt_e (d : str * Z) (prec : Z) : str :=
  let (ds, dp) := d in
  let first := match ds with c :: _ => [c] | [] => ["0"%ch] end in
  let frac := firstn (Z.to_nat prec) (tl ds) in
  let x := match ds with [] => 0 | _ => dp - 1 end in
  first ++ (if 0 <? prec then "."%ch :: frac ++ zeros (prec - zlen frac) else [])
        ++ "e"%ch :: fmt_exp x.
Definition fmt_f (d : str * Z) (prec : Z) : str :=
  let (ds, dp) := d in
  let ip := if 0 <? dp
            then firstn (Z.to_nat dp) ds ++ zeros (dp - zlen ds)
            else ["0"%ch] in
  let frac := firstn (Z.to_nat prec)
                (zeros (- dp) ++ skipn (Z.to_nat dp) ds ++ zeros prec) in
  ip ++ (if 0 <? prec then "."%ch :: frac else []).
(** strconv's %e/%f choice for format 'g' *)
Definition fmt_g (d : str * Z) (prec : Z) (shortest : bool) : str :=
  let (ds, dp) := d in
  let nd := zlen ds in
  let eprec := if shortest then 6
               else if (nd <? prec) && (dp <=? nd) then nd else prec in
  let x := dp - 1 in
  if (x <? -4) || (eprec <=? x) then fmt_e d (Z.min prec nd - 1)
  else fmt_f d (Z.max 0 ((if dp <? prec then nd else prec) - dp)).

Definition with_sign (neg : bool) (s : str) : str := if neg then "-"%ch :: s else s.
Definition inf_text (neg : bool) : str :=
  if neg then lit "-Inf" else lit "+Inf".

(** fmt.Sprintf("%.16g", x), fmt.Sprintf("%.16e", x) *)
Definition sprintf_16g (x : f64) : str :=
  match x with
  | Inf n => inf_text n
  | Fin n m e => with_sign n (fmt_g (sig_digits 16 m e) 16 false)
  end.
Definition sprintf_16e (x : f64) : str :=
  match x with
  | Inf n => inf_text n
  | Fin n m e => with_sign n (fmt_e (sig_digits 17 m e) 16)
  end.
(** strconv.FormatFloat(x, 'g', -1, 64) *)
Definition format_float_g (x : f64) : str :=
  match x with
  | Inf n => inf_text n
  | Fin n m e => let d := shortest_digits m e in
                 with_sign n (fmt_g d (zlen (fst d)) true)
  end.
