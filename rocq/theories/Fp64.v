(** * Fp64: the arithmetic of [float] and [double] in [read_fp]

    Model of the operations of [FileReader::read_fp<double>] and
    [read_fp<float>], pigo.impl.hpp:326-367, in IEEE 754 binary64 and binary32
    with rounding to nearest even ([SpecFloat] of the standard library; NaNs have
    no payload).  Simplifications: the default rounding mode, no extended
    precision and no contraction of [a*b+c] into a fused operation; [std::pow(10.,
    x)] is a parameter [pw x]. *)

From Coq Require Import ZArith SpecFloat.
From Verif Require Import Base Coo.
Open Scope Z_scope.

(** binary64: [double]; [dbl z] is the conversion of an integer. *)
Definition dbl (z : Z) : spec_float := binary_normalize 53 1024 z 0 false.
Definition dadd : spec_float -> spec_float -> spec_float := SFadd 53 1024.
Definition dmul : spec_float -> spec_float -> spec_float := SFmul 53 1024.
Definition ddiv : spec_float -> spec_float -> spec_float := SFdiv 53 1024.

(** binary32: [float]; the conversions between the two types. *)
Definition flt (z : Z) : spec_float := binary_normalize 24 128 z 0 false.
Definition fmul : spec_float -> spec_float -> spec_float := SFmul 24 128.
Definition to64 (x : spec_float) : spec_float :=
  match x with S754_finite s m e => binary_round 53 1024 s m e | _ => x end.
Definition to32 (x : spec_float) : spec_float :=
  match x with S754_finite s m e => binary_round 24 128 s m e | _ => x end.

(** [read_fp<double>]: [res*10. + (double)digit] (:344, 353), [res +=
    fraction / pow(10., count)] (:357), [res *= pow(10., exp)] (:362),
    [res *= -1] (:365). *)
Definition fp_double (pw : spec_float -> spec_float) : fpops :=
  mkFp spec_float (S754_zero false)
    (fun a k => dadd (dmul a (dbl 10)) (dbl k))
    (fun a b n => dadd a (ddiv b (pw (dbl (Z.of_nat n)))))
    (fun a b => dmul a (pw b))
    (fun a => dmul a (dbl (-1))).

(** [read_fp<float>]: [10.] and the result of [pow] are doubles, so all but the
    last operation are computed in double and converted back. *)
Definition fp_float (pw : spec_float -> spec_float) : fpops :=
  mkFp spec_float (S754_zero false)
    (fun a k => to32 (dadd (dmul (to64 a) (dbl 10)) (to64 (flt k))))
    (fun a b n => to32 (dadd (to64 a) (ddiv (to64 b) (pw (dbl (Z.of_nat n))))))
    (fun a b => to32 (dmul (to64 a) (pw (to64 b))))
    (fun a => fmul a (flt (-1))).
