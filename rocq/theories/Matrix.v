(** * Matrix: [Matrix] built from a file, include/pigo/matrix.hpp *)

From Verif Require Import Base Coo Ascii Csr Bin Load Retype.

(** The observable contents: the rows ([csr()]) and the columns ([csc()]),
    matrix.hpp:104-125, 215-238. *)
Record matrix (W : Type) := mkMatrix { mx_csr : csr W; mx_csc : csr W }.
Arguments mkMatrix {W}.
Arguments mx_csr {W}.
Arguments mx_csc {W}.

(** [from_coo_], matrix.hpp:127-156: the CSC is the CSR of the transposed copy. *)
Definition matrix_of_coo {W : Type} (L O : ity) (weighted : bool) (c : coo W) (ch1 ch2 : cchoice) : res (matrix W) :=
  cc <- convert_coo L O weighted (coo_transpose c) ch1 ;;
  cr <- convert_coo L O weighted c ch2 ;;
  Ok (mkMatrix cr cc).

(** [Matrix(std::string)], matrix.hpp:188-196: a COO without flags from the file
    (type [AUTO], coo.impl.hpp:15), then [from_coo_]. *)
Definition matrix_open {W : Type} (L O : ity) (wm : option (wmode W)) (pg : nat) (fn : list byte) (d : disk)
    (ch : lchoice) (ch1 ch2 : cchoice) : res (matrix W) :=
  c <- coo_open L O wm no_flags pg fn d AUTO ch ;;
  matrix_of_coo L O (is_some wm) c ch1 ch2.

(** [Ordinal nrows() { return csr_.nrows(); }], [ncols()], matrix.hpp:205-208:
    the CSR's [Label] is converted to [Ordinal]. *)
Definition matrix_nrows {W : Type} (O : ity) (x : matrix W) : option Z := cast O (cs_nrows (mx_csr x)).
Definition matrix_ncols {W : Type} (O : ity) (x : matrix W) : option Z := cast O (cs_ncols (mx_csr x)).
