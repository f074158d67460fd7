(** What texts python reads as integers and floats (C48). *)
From Coq Require Import Qpower.
From Verif Require Export PyNum.
#[local] Open Scope Z_scope.

Definition digit (c : ascii) (d : Z) : Prop := exists n, (n < 10)%nat /\ c = ascii_of_nat (48 + n) /\ d = Z.of_nat n.
(** A sequence of digits, with single underscores between them: its value, and how many. *)
Inductive digits : string -> Z -> nat -> Prop :=
| dg_one c d : digit c d -> digits (String c "") d 1
| dg_more s v n c d : digits s v n -> digit c d -> digits (s ++ String c "") (10 * v + d) (S n)
| dg_under s v n c d : digits s v n -> digit c d -> digits (s ++ String "_" (String c "")) (10 * v + d) (S n).
Inductive signed : string -> bool -> Prop :=
| sg_none : signed "" false
| sg_plus : signed "+" false
| sg_minus : signed "-" true.
(** Only white space. *)
Fixpoint blank (s : string) : Prop := match s with EmptyString => True | String c s' => is_space c = true /\ blank s' end.

(** [int(s)] *)
Definition int_literal (s : string) (z : Z) : Prop := exists a sg neg body v n b,
  s = (a ++ sg ++ body ++ b)%string /\ blank a /\ blank b /\ signed sg neg /\ digits body v n /\ z = (if neg then - v else v).

(** Digits with a decimal point: the value without the point, and the digits after it. *)
Inductive mantissa : string -> Z -> nat -> Prop :=
| mt_int s v n : digits s v n -> mantissa s v 0
| mt_point s v n : digits s v n -> mantissa (s ++ ".") v 0
| mt_both s v n s' v' n' : digits s v n -> digits s' v' n' -> mantissa (s ++ "." ++ s') (v * 10 ^ Z.of_nat n' + v') n'
| mt_frac s v n : digits s v n -> mantissa ("." ++ s) v n.
Inductive power : string -> Z -> Prop :=
| pw_none : power "" 0
| pw_some c sg neg s v n : c = "e"%char \/ c = "E"%char -> signed sg neg -> digits s v n -> power (String c (sg ++ s)) (if neg then - v else v).
(** [float(s)] *)
Definition float_literal (s : string) (f : pyfloat) : Prop := exists a sg neg body b,
  s = (a ++ sg ++ body ++ b)%string /\ blank a /\ blank b /\ signed sg neg /\
  (((lower body = "inf" \/ lower body = "infinity") /\ f = FInf neg) \/ (lower body = "nan" /\ f = FNan) \/
   exists m p v n e q, body = (m ++ p)%string /\ mantissa m v n /\ power p e /\ f = FFin q /\
     (q == inject_Z (if neg then - v else v)%Z * Qpower 10 (e - Z.of_nat n))%Q).
Definition same_float (f g : pyfloat) : Prop := match f, g with FFin p, FFin q => (p == q)%Q | _, _ => f = g end.
