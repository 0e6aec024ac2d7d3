(** * SpecCrash: what is left of a save that did not come to its end

    Vocabulary of C67. *)

From Verif Require Import Base Sched Coo Csr Codec Bin SpecReweigh SpecCut.

(** A new file of [n] bytes: zeros, and a one at the end. *)
Definition created (n : nat) : list byte := match n with O => [] | S k => repeat 0%Z k ++ [1%Z] end.

(** [s] has the length of the complete file [b], and each byte is the one of
    [b] or still the one of the new file. *)
Definition partly_stored (b s : list byte) : Prop :=
  length s = length b /\
  forall i, nth_error s i = nth_error b i \/ nth_error s i = nth_error (created (length b)) i.

(** The bytes from [p] on and before [q] have been stored. *)
Definition in_place (b s : list byte) (p q : nat) : Prop := forall i, p <= i -> i < q -> nth_error s i = nth_error b i.

(** The array [a] lies in the complete file from byte [p] on, [sz] bytes per
    element: the array [a'] has as many elements, and those that have been
    stored are the same. *)
Definition keeps_stored {V : Type} (sz p : nat) (b s : list byte) (a a' : list (option V)) : Prop :=
  length a' = length a /\ forall i, in_place b s (p + sz * i) (p + sz * S i) -> nth_error a' i = nth_error a i.

(** What is read when the header is complete. *)
Definition coo_remains {W : Type} (L O : ity) (wc : option (codec W)) (b s : list byte) (c c' : coo W) : Prop :=
  let m := Z.to_nat (co_m c) in
  let px := 13 + 3 * isize L + isize O in
  let py := px + isize L * m in
  let pw := py + isize L * m in
  co_m c' = co_m c /\ co_n c' = co_n c /\ co_nrows c' = co_nrows c /\ co_ncols c' = co_ncols c /\
  co_x c' = array_at (cint L) m px s /\ keeps_stored (isize L) px b s (co_x c) (co_x c') /\
  co_y c' = array_at (cint L) m py s /\ keeps_stored (isize L) py b s (co_y c) (co_y c') /\
  match wc with
  | None => co_w c' = []
  | Some cd => co_w c' = array_at cd m pw s /\ keeps_stored (cd_size cd) pw b s (co_w c) (co_w c')
  end.

(** The same of a CSR whose file begins at byte [p0]. *)
Definition csr_remains {W : Type} (L O : ity) (wc : option (codec W)) (p0 : nat) (b s : list byte) (c c' : csr W) : Prop :=
  let n1 := Z.to_nat (cs_n c + 1) in
  let m := Z.to_nat (cs_m c) in
  let po := p0 + 13 + 3 * isize L + isize O in
  let pe := po + isize O * n1 in
  let pw := pe + isize L * m in
  cs_n c' = cs_n c /\ cs_m c' = cs_m c /\ cs_nrows c' = cs_nrows c /\ cs_ncols c' = cs_ncols c /\
  cs_off c' = array_at (cint O) n1 po s /\ keeps_stored (isize O) po b s (cs_off c) (cs_off c') /\
  cs_end c' = array_at (cint L) m pe s /\ keeps_stored (isize L) pe b s (cs_end c) (cs_end c') /\
  match wc with
  | None => cs_w c' = []
  | Some cd => cs_w c' = array_at cd m pw s /\ keeps_stored (cd_size cd) pw b s (cs_w c) (cs_w c')
  end.

(** The same of a tensor. *)
Definition tensor_remains {W : Type} (L O : ity) (wc : option (codec W)) (b s : list byte) (t t' : tensor W) : Prop :=
  let m := Z.to_nat (te_m t) in
  let labels := Z.to_nat (te_order t) * m in
  let pc := 15 + (match wc with None => 0 | Some _ => 1 end) + 2 * isize O in
  let pw := pc + isize L * labels in
  te_order t' = te_order t /\ te_m t' = te_m t /\
  te_c t' = array_at (cint L) labels pc s /\ keeps_stored (isize L) pc b s (te_c t) (te_c t') /\
  match wc with
  | None => te_w t' = []
  | Some cd => te_w t' = array_at cd m pw s /\ keeps_stored (cd_size cd) pw b s (te_w t) (te_w t')
  end.
