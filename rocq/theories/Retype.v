(** * Retype: conversions between objects of different template types

    The constructors [CSR(COO<...>&)] (csr.impl.hpp:96-104, 106-254) and
    [COO(CSR<...>&)] (coo.impl.hpp:60-129) accept a source whose label, ordinal
    and weight types differ from those of the target; so do [DiGraph(COO<...>&)]
    (graph.hpp:208-237) and [Matrix(COO<...>&)] (matrix.hpp:127-182).  Csr.v
    models them for equal types; here the conversions of the values are added.

    Every value of the source is read once per use and converted to the target's
    type by that read, so the code behaves as if the source held the converted
    values. *)

From Coq Require Import Permutation.
From Verif Require Import Base Sched Coo Ascii Csr.

(** An implicit integer conversion; an indeterminate value stays indeterminate. *)
Definition cast (t : ity) (v : option Z) : option Z := option_map (wrap t) v.

(** [(W)val] for a weight: [f] is the conversion of the weight types, [None]
    where it is undefined (a floating-point number that does not fit an integer
    type).  csr.impl.hpp:77-92 ([copy_weight]); coo.impl.hpp:115, 124. *)
Definition cast_weight {W W' : Type} (f : W -> option W') (v : option W) : option W' :=
  match v with Some w => f w | None => None end.

(** A COO as [convert_coo_] of a CSR with labels [L] and ordinals [O] sees it:
    [n_ = coo.n()], [m_ = coo.m()], [nrows_], [ncols_] (csr.impl.hpp:111-115),
    [get_value_<COOStorage, L>] (pigo.hpp:712-755; csr.impl.hpp:173, 233-234)
    and [copy_weight] (csr.impl.hpp:77-92, 244). *)
Definition coo_as {W W' : Type} (L O : ity) (f : W -> option W') (c : coo W) : coo W' :=
  mkCoo (map (cast L) (co_x c)) (map (cast L) (co_y c)) (map (cast_weight f) (co_w c))
    (cast L (co_n c)) (cast L (co_nrows c)) (cast L (co_ncols c)) (wrap O (co_m c)).

(** [CSR<L,O,..>::CSR(COO<COOL,COOO,..>&)], csr.impl.hpp:96-254. *)
Definition csr_from_coo {W W' : Type} (L O : ity) (f : W -> option W') (weighted : bool) (c : coo W) (ch : cchoice)
  : res (csr W') :=
  convert_coo L O weighted (coo_as L O f c) ch.

(** A CSR as [convert_csr_] of a COO with labels [L] and ordinals [O] sees it:
    [n_ = csr.n()], [m_ = csr.m()] (coo.impl.hpp:68-69); the offsets are read in
    their own type ([CO*], line 82), an endpoint is converted by
    [L new_y = *cur] (line 107), a weight by the store (lines 115, 124). *)
Definition csr_as {W W' : Type} (L O : ity) (f : W -> option W') (c : csr W) : csr W' :=
  mkCsr (cs_off c) (map (cast L) (cs_end c)) (map (cast_weight f) (cs_w c)) (wrap L (cs_n c)) (wrap O (cs_m c))
    (cast L (cs_nrows c)) (cast L (cs_ncols c)).

(** [COO<L,O,..>::COO(CSR<CL,CO,..>&)], coo.impl.hpp:60-129. *)
Definition coo_from_csr {W W' : Type} (L O : ity) (f : W -> option W') (fl : flags) (weighted : bool) (c : csr W)
    (parts : list (list nat)) (sched : list nat) : res (coo W') :=
  convert_csr O fl weighted (csr_as L O f c) parts sched.

(** [DiGraph<L,O,..>(COO<COOL,COOO,..>&)], graph.hpp:208-237, and [Matrix],
    matrix.hpp:127-182: the copy has the type of the source, both CSRs are
    converted from it. *)
Definition digraph_from_coo {W W' : Type} (L O : ity) (f : W -> option W') (weighted : bool) (c : coo W)
    (ch1 ch2 : cchoice) : res (csr W' * csr W') :=
  i <- csr_from_coo L O f weighted (coo_transpose c) ch1 ;;
  o <- csr_from_coo L O f weighted c ch2 ;;
  Ok (i, o).
