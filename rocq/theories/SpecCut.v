(** * SpecCut: binary files that lost their end

    Vocabulary of C47. *)

From Verif Require Import Base Sched Coo Csr Codec SpecReweigh.

(** The file [b] cut after [k] bytes, with zero bytes in place of the missing ones. *)
Definition padded (k : nat) (b : list byte) : list byte := firstn k b ++ repeat 0%Z (length b - k).

(** The array of [n] values stored from byte [p] on. *)
Definition array_at {V : Type} (c : codec V) (n p : nat) (bs : list byte) : list (option V) := map Some (values c n (skipn p bs)).

(** The array [a] lies in the file from byte [p] on, [sz] bytes per element, and
    the file was cut after [k] bytes: [a'] has as many elements, and those
    stored completely before the cut are the same. *)
Definition keeps_cells {V : Type} (sz p k : nat) (a a' : list (option V)) : Prop :=
  length a' = length a /\ forall i, p + sz * S i <= k -> nth_error a' i = nth_error a i.

(** The elements stored completely behind the cut are zero. *)
Definition zero_cells (sz p k : nat) (a : list (option Z)) : Prop :=
  forall i, i < length a -> k <= p + sz * i -> nth_error a i = Some (Some 0%Z).

(** [c'] is what remains of the CSR [c], whose arrays lie in [b] from byte
    [po] on, when [b] is cut after [k] bytes. *)
Definition csr_cut {W : Type} (L O : ity) (wc : option (codec W)) (po k : nat) (b : list byte) (c c' : csr W) : Prop :=
  let n1 := Z.to_nat (cs_n c + 1) in
  let m := Z.to_nat (cs_m c) in
  let pe := po + isize O * n1 in
  let pw := pe + isize L * m in
  cs_n c' = cs_n c /\ cs_m c' = cs_m c /\ cs_nrows c' = cs_nrows c /\ cs_ncols c' = cs_ncols c /\
  cs_off c' = array_at (cint O) n1 po (padded k b) /\
  cs_end c' = array_at (cint L) m pe (padded k b) /\
  cs_w c' = match wc with None => [] | Some cd => array_at cd m pw (padded k b) end /\
  keeps_cells (isize O) po k (cs_off c) (cs_off c') /\ zero_cells (isize O) po k (cs_off c') /\
  keeps_cells (isize L) pe k (cs_end c) (cs_end c') /\ zero_cells (isize L) pe k (cs_end c') /\
  match wc with None => True | Some cd => keeps_cells (cd_size cd) pw k (cs_w c) (cs_w c') end.
