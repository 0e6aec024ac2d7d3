(** * SpecMm: Matrix Market coordinate files

    Independent of the model. *)

From Coq Require Import String.
From Verif Require Import Base Spec SpecBin.
Open Scope list_scope.

Definition mm_banner : list byte := chars "%%MatrixMarket matrix coordinate".

(** The banner line, comments, the line [rows cols nnz], the entries. *)
Record mm_file := mkMm {
  mm_kind : list byte;                  (* the rest of the banner line *)
  mm_pre : list byte;                   (* up to the header *)
  mm_r : list byte; mm_s1 : list byte; mm_c : list byte; mm_s2 : list byte; mm_z : list byte;
  mm_rest : list byte;                  (* the rest of the header line *)
  mm_body : el_file
}.
Definition mm_text (f : mm_file) : list byte :=
  mm_banner ++ mm_kind f ++ ch_nl :: mm_pre f ++
  mm_r f ++ mm_s1 f ++ mm_c f ++ mm_s2 f ++ mm_z f ++ mm_rest f ++ ch_nl :: el_text (mm_body f).
Definition wf_mm (f : mm_file) : Prop :=
  Forall (fun c => is_nl c = false) (mm_kind f) /\ gap false (mm_pre f) /\
  digits (mm_r f) /\ separator (mm_s1 f) /\ digits (mm_c f) /\ separator (mm_s2 f) /\ digits (mm_z f) /\
  rest (mm_rest f) /\ wf_el (mm_body f).
