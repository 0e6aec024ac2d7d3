(** * SpecFp64: floating-point numbers as rational numbers

    Independent of the model.  [spec_float] (standard library): a sign, a
    mantissa [m] and an exponent [e] for [m * 2^e], the two zeros, the infinities
    and NaN. *)

From Coq Require Import QArith Qabs SpecFloat.
Close Scope Q_scope.

Definition pow2 (e : Z) : Q := ((2 # 1) ^ e)%Q.

(** The number, if there is one. *)
Definition sf_value (x : spec_float) : option Q :=
  match x with
  | S754_zero _ => Some 0%Q
  | S754_finite s m e => Some ((if s then - inject_Z (Zpos m) else inject_Z (Zpos m)) * pow2 e)%Q
  | _ => None
  end.
Definition denotes (x : spec_float) (q : Q) : Prop := exists v, sf_value x = Some v /\ (v == q)%Q.

(** A value of type [double] ([float]): the mantissa has 53 (24) bits, or fewer
    if the exponent is the least one; the exponent is in range. *)
Definition is_double (x : spec_float) : Prop := valid_binary 53 1024 x = true.
Definition is_float (x : spec_float) : Prop := valid_binary 24 128 x = true.

(** No value of the type is closer to [q] than [x]. *)
Definition nearest (ty : spec_float -> Prop) (x : spec_float) (q : Q) : Prop :=
  ty x /\ exists v, sf_value x = Some v /\
    forall y w, ty y -> sf_value y = Some w -> (Qabs (v - q) <= Qabs (w - q))%Q.
