(** Python's [int()] and [float()] on text, and [math.isclose].

    Simplification: a finite float is an exact rational; python rounds to the
    nearest double.  The model therefore distinguishes floats that differ by
    less than one rounding step, and does not overflow to infinity. *)
From Coq Require Export ZArith QArith Qabs.
From Verif Require Export Base.
#[local] Open Scope Z_scope.

Inductive pyfloat := FNan | FInf (negative : bool) | FFin (q : Q).

Definition digit_val (c : ascii) : option Z :=
  let n := nat_of_ascii c in
  if (48 <=? n)%nat && (n <=? 57)%nat then Some (Z.of_nat (n - 48)) else None.

(** digitpart: digit (["_"] digit)*.  Returns (value, number of digits, rest). *)
Fixpoint digits_more (acc : Z) (cnt : nat) (s : string) : Z * nat * string :=
  match s with
  | EmptyString => (acc, cnt, s)
  | String c s' =>
      match digit_val c with
      | Some d => digits_more (acc * 10 + d) (S cnt) s'
      | None =>
          if Ascii.eqb c "_" then
            match s' with
            | String c' s'' =>
                match digit_val c' with
                | Some d => digits_more (acc * 10 + d) (S cnt) s''
                | None => (acc, cnt, s)
                end
            | EmptyString => (acc, cnt, s)
            end
          else (acc, cnt, s)
      end
  end.

Definition digitpart (s : string) : option (Z * nat * string) :=
  match s with
  | String c s' =>
      match digit_val c with
      | Some d => Some (digits_more d 1 s')
      | None => None
      end
  | EmptyString => None
  end.

Definition sign (s : string) : bool * string :=
  match s with
  | String c s' =>
      if Ascii.eqb c "-" then (true, s')
      else if Ascii.eqb c "+" then (false, s') else (false, s)
  | EmptyString => (false, s)
  end.

(** [int(s)] base 10; [None] is ValueError. *)
Definition py_int (s0 : string) : option Z :=
  let '(neg, s) := sign (strip s0) in
  match digitpart s with
  | Some (v, _, EmptyString) => Some (if neg then - v else v)
  | _ => None
  end.

Definition pow10 (e : Z) : Q :=
  if e <? 0 then (1 # Z.to_pos (10 ^ (- e)))%Q else inject_Z (10 ^ e).

Definition exponent (s : string) : option Z :=
  match s with
  | EmptyString => Some 0
  | String c s' =>
      if Ascii.eqb c "e" || Ascii.eqb c "E" then
        let '(neg, s'') := sign s' in
        match digitpart s'' with
        | Some (v, _, EmptyString) => Some (if neg then - v else v)
        | _ => None
        end
      else None
  end.

Definition mk_fin (neg : bool) (mant : Z) (fracdigits : nat) (e : Z) : pyfloat :=
  FFin ((inject_Z (if neg then - mant else mant)) * pow10 (e - Z.of_nat fracdigits))%Q.

(** [float(s)]; [None] is ValueError. *)
Definition py_float (s0 : string) : option pyfloat :=
  let '(neg, s) := sign (strip s0) in
  let l := lower s in
  if String.eqb l "inf" || String.eqb l "infinity" then Some (FInf neg)
  else if String.eqb l "nan" then Some FNan
  else
    match digitpart s with
    | Some (v, _, rest) =>
        match rest with
        | String c rest' =>
            if Ascii.eqb c "." then
              match digitpart rest' with
              | Some _ =>
                  let '(v', n', rest'') := digits_more v 0 rest' in
                  e ← exponent rest''; Some (mk_fin neg v' n' e)
              | None => e ← exponent rest'; Some (mk_fin neg v 0 e)
              end
            else e ← exponent rest; Some (mk_fin neg v 0 e)
        | EmptyString => Some (mk_fin neg v 0 0)
        end
    | None =>
        match s with
        | String c rest' =>
            if Ascii.eqb c "." then
              match digitpart rest' with
              | Some (v, n, rest'') => e ← exponent rest''; Some (mk_fin neg v n e)
              | None => None
              end
            else None
        | EmptyString => None
        end
    end.

(** [math.isclose(a, b)] with the default tolerances rel_tol=1e-09, abs_tol=0. *)
Definition isclose (a b : pyfloat) : bool :=
  match a, b with
  | FFin p, FFin q =>
      Qeq_bool p q ||
      let d := Qabs (q - p)%Q in
      Qle_bool d (Qabs ((1 # 1000000000) * q)%Q) || Qle_bool d (Qabs ((1 # 1000000000) * p)%Q)
  | FInf n, FInf m => Bool.eqb n m
  | _, _ => false
  end.
