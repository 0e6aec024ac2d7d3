(** * SpecFrag: edge lists whose last line lacks its newline

    [cut_text f z]: the lines of [f], then the line [z] without its newline.
    Uses the file grammar of [Spec] only. *)

From Verif Require Import Base Spec SpecFp Coo WeightLemmas ElSpec.

Definition cut_text (f : el_file) (z : line) : list byte :=
  el_text f ++ l_x z ++ l_sep z ++ l_y z ++ l_post z.

(** All lines of [f] are complete and no comment of [f] runs into [z]. *)
Definition wf_cut (f : el_file) (z : line) : Prop :=
  gap false (el_head f) /\ Forall (wf_line false) (el_lines f) /\
  digits (l_x z) /\ separator (l_sep z) /\ digits (l_y z) /\ rest (l_post z).

(** The last line ends with its weight [v]. *)
Definition ends_in_weight (k : wkind) : list byte -> wtype k -> Prop :=
  match k with
  | WUnsigned t => fun post v => exists sp ds, post = sp ++ ds /\ separator sp /\ digits ds /\ v = dval ds /\ (v <= imax t)%Z
  | WSigned t => fun post v => exists sp sg ds, post = sp ++ sg ++ ds /\ sgn_sep sp /\ digits ds /\
      ((sg = [] /\ v = dval ds) \/ (sg = [ch_plus] /\ v = dval ds) \/ (sg = [ch_minus] /\ v = (- dval ds)%Z)) /\
      (- imax t <= v <= imax t)%Z
  | WFloat F => fun post v => exists sp lit, post = sp ++ fplit_text lit /\
      Forall (fun c => is_fp c = false /\ is_nl c = false) sp /\ wf_fplit lit /\ v = fp_value F lit
  end.

(** The number of array cells reserved for such a line when the object is
    weighted: one without flags; with flags as many as the line would store, if
    the weights are integers, and none if they are floating point. *)
Definition any_flag (fl : flags) : bool := f_sym fl || f_ut fl || f_sl fl.
Definition reserved (k : wkind) (fl : flags) (z : line) : nat :=
  if any_flag fl then
    match k with
    | WFloat _ => 0
    | _ => length (stored fl [(dval (l_x z), dval (l_y z), tt)])
    end
  else 1.
