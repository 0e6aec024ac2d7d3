(** * SpecBin: the layout of PIGO's binary files

    Independent of the model of the code: what bytes a file must consist of.
    The values are those of the object; [None] stands for a byte without a
    definite value. *)

From Coq Require Import String Ascii.
From Verif Require Import Base Sched Coo Csr Codec Bin.
Open Scope list_scope.

Definition text (s : string) : list (option byte) :=
  map (fun a => Some (Z.of_nat (nat_of_ascii a))) (list_ascii_of_string s).

(** The bytes of a string, and a file beginning with it and at least one more
    byte. *)
Definition chars (s : string) : list byte := map (fun a => Z.of_nat (nat_of_ascii a)) (list_ascii_of_string s).
Definition begins (s magic : list byte) : Prop := exists b rest, s = magic ++ b :: rest.
Definition ends_in (fn ext : list byte) : Prop := exists pre, fn = pre ++ ext.

(** One byte giving [sizeof(t)]. *)
Definition sizeof (t : ity) : list (option byte) := [Some (ibits t / 8)%Z].

(** A scalar, which may have no definite value. *)
Definition scalar (t : ity) (o : option Z) : list (option byte) :=
  match o with Some z => map Some (le (isize t) z) | None => repeat None (isize t) end.
Definition known (t : ity) (z : Z) : list (option byte) := scalar t (Some z).

(** An array. *)
Definition array {V : Type} (c : codec V) (l : list (option V)) : list (option byte) :=
  concat (map (fun o => match o with Some v => map Some (cd_enc c v) | None => repeat None (cd_size c) end) l).
Definition labels (t : ity) (l : list (option Z)) : list (option byte) := array (cint t) l.
Definition wgts {W : Type} (wc : option (codec W)) (l : list (option W)) : list (option byte) :=
  match wc with None => [] | Some c => array c l end.

Definition coo_layout {W : Type} (L O : ity) (wc : option (codec W)) (c : coo W) : list (option byte) :=
  text "PIGO-COO-v1" ++ sizeof L ++ sizeof O ++
  scalar L (co_nrows c) ++ scalar L (co_ncols c) ++ scalar L (co_n c) ++ known O (co_m c) ++
  labels L (co_x c) ++ labels L (co_y c) ++ wgts wc (co_w c).

Definition csr_layout {W : Type} (L O : ity) (wc : option (codec W)) (c : csr W) : list (option byte) :=
  text "PIGO-CSR-v2" ++ sizeof L ++ sizeof O ++
  known L (cs_n c) ++ known O (cs_m c) ++ scalar L (cs_nrows c) ++ scalar L (cs_ncols c) ++
  labels O (cs_off c) ++ labels L (cs_end c) ++ wgts wc (cs_w c).

Definition digraph_layout {W : Type} (L O : ity) (wc : option (codec W)) (in_ out_ : csr W) : list (option byte) :=
  text "PIGO-DiGraph-v1" ++ csr_layout L O wc in_ ++ csr_layout L O wc out_.

Definition tensor_layout {W : Type} (L O : ity) (wc : option (codec W)) (t : tensor W) : list (option byte) :=
  text "PIGO-Tensor-2" ++ sizeof L ++ sizeof O ++
  match wc with None => [] | Some c => [Some (Z.of_nat (cd_size c))] end ++
  known O (te_order t) ++ known O (te_m t) ++ labels L (te_c t) ++ wgts wc (te_w t).

(** A file whose bytes are [l], each stored exactly once. *)
Definition written_once (w : wfile) (l : list (option byte)) : Prop :=
  wf_data w = map (fun b => (b, 1)) l.
(** A file whose bytes all have definite values, those of [s]. *)
Definition contents (w : wfile) (s : list byte) : Prop := map fst (wf_data w) = map Some s.

(** ** Objects whose arrays have the sizes the object announces *)
Definition wlen {W : Type} (wc : option (codec W)) (l : list (option W)) (m : Z) : Prop :=
  match wc with None => l = [] | Some _ => Z.of_nat (length l) = m end.
Definition coo_shape {W : Type} (wc : option (codec W)) (c : coo W) : Prop :=
  Z.of_nat (length (co_x c)) = co_m c /\ Z.of_nat (length (co_y c)) = co_m c /\ wlen wc (co_w c) (co_m c).
Definition csr_shape {W : Type} (wc : option (codec W)) (c : csr W) : Prop :=
  (0 <= cs_n c)%Z /\ Z.of_nat (length (cs_off c)) = (cs_n c + 1)%Z /\
  Z.of_nat (length (cs_end c)) = cs_m c /\ wlen wc (cs_w c) (cs_m c).
Definition tensor_shape {W : Type} (wc : option (codec W)) (t : tensor W) : Prop :=
  (0 <= te_order t)%Z /\ (0 <= te_m t)%Z /\
  Z.of_nat (length (te_c t)) = (te_order t * te_m t)%Z /\ wlen wc (te_w t) (te_m t).

(** ** Objects all of whose values are defined and representable *)
Definition fit (t : ity) (o : option Z) : Prop := exists z, o = Some z /\ inrange t z = true.
Definition wfit {W : Type} (wc : option (codec W)) (P : W -> Prop) (l : list (option W)) : Prop :=
  match wc with
  | None => True
  | Some c => faithful P c /\ (cd_size c < 256) /\ Forall (fun o => exists w, o = Some w /\ P w) l
  end.
Definition coo_full {W : Type} (L O : ity) (wc : option (codec W)) (P : W -> Prop) (c : coo W) : Prop :=
  fit L (co_nrows c) /\ fit L (co_ncols c) /\ fit L (co_n c) /\ inrange O (co_m c) = true /\
  Forall (fit L) (co_x c) /\ Forall (fit L) (co_y c) /\ wfit wc P (co_w c).
Definition csr_full {W : Type} (L O : ity) (wc : option (codec W)) (P : W -> Prop) (c : csr W) : Prop :=
  inrange L (cs_n c) = true /\ inrange O (cs_m c) = true /\ fit L (cs_nrows c) /\ fit L (cs_ncols c) /\
  Forall (fit O) (cs_off c) /\ Forall (fit L) (cs_end c) /\ wfit wc P (cs_w c).
Definition tensor_full {W : Type} (L O : ity) (wc : option (codec W)) (P : W -> Prop) (t : tensor W) : Prop :=
  inrange O (te_order t) = true /\ inrange O (te_m t) = true /\
  Forall (fit L) (te_c t) /\ wfit wc P (te_w t).
