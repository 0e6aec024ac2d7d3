(** * SpecFp: decimal floating-point literals

    [sign] digits [. digits] [(e|E) [sign] digits].  Independent of the model. *)

From Coq Require Import QArith.
From Verif Require Import Base Spec.
Close Scope Q_scope.

Inductive fsign := SNone | SPlus | SMinus.

Record fplit := mkFplit {
  fl_sign : fsign;
  fl_int : list byte;
  fl_frac : option (list byte);
  fl_exp : option (byte * fsign * list byte)
}.

Definition sign_text (s : fsign) : list byte :=
  match s with SNone => [] | SPlus => [ch_plus] | SMinus => [ch_minus] end.
Definition frac_text (o : option (list byte)) : list byte :=
  match o with None => [] | Some ds => ch_dot :: ds end.
Definition exp_text (o : option (byte * fsign * list byte)) : list byte :=
  match o with None => [] | Some (c, s, ds) => c :: sign_text s ++ ds end.

Definition fplit_text (f : fplit) : list byte :=
  sign_text (fl_sign f) ++ fl_int f ++ frac_text (fl_frac f) ++ exp_text (fl_exp f).

Definition all_digits (ds : list byte) : Prop := Forall (fun c => is_digit c = true) ds.

(** At least one digit in the mantissa, and in the exponent if there is one. *)
Definition wf_fplit (f : fplit) : Prop :=
  all_digits (fl_int f) /\
  match fl_frac f with None => True | Some ds => all_digits ds end /\
  (fl_int f <> [] \/ exists ds, fl_frac f = Some ds /\ ds <> []) /\
  match fl_exp f with
  | None => True
  | Some (c, _, ds) => (c = ch_e \/ c = ch_E) /\ digits ds
  end.

Definition neg_of (s : fsign) : bool := match s with SMinus => true | _ => false end.

(** The rational number a literal denotes. *)
Definition pow10 (z : Z) : Q := ((10 # 1) ^ z)%Q.
Definition fplit_exp (f : fplit) : Z :=
  match fl_exp f with
  | None => 0%Z
  | Some (_, s, ds) => if neg_of s then (- dval ds)%Z else dval ds
  end.
Definition fplit_frac (f : fplit) : list byte :=
  match fl_frac f with None => [] | Some ds => ds end.
Definition fplit_value (f : fplit) : Q :=
  let mant := (inject_Z (dval (fl_int f)) +
               inject_Z (dval (fplit_frac f)) * pow10 (- Z.of_nat (length (fplit_frac f))))%Q in
  let v := (mant * pow10 (fplit_exp f))%Q in
  if neg_of (fl_sign f) then (- v)%Q else v.

(** A floating-point weight in the rest of a line. *)
Inductive post_float : list byte -> fplit -> Prop :=
| post_float_intro sp f tl :
    Forall (fun c => is_fp c = false /\ is_nl c = false) sp -> wf_fplit f ->
    Forall (fun c => is_nl c = false) tl ->
    match tl with [] => True | c :: _ => is_fp c = false end ->
    post_float (sp ++ fplit_text f ++ tl) f.
