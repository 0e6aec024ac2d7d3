(** * SpecReweigh: binary files and the weight parameter

    Vocabulary of C61. *)

From Verif Require Import Base Sched Coo Csr Codec Bin.

(** [k] values stored one after the other. *)
Fixpoint values {V : Type} (c : codec V) (k : nat) (bs : list byte) : list V :=
  match k with
  | O => []
  | S k' => cd_dec c (firstn (cd_size c) bs) :: values c k' (skipn (cd_size c) bs)
  end.

(** What [k] values read from [bs] are when zero bytes follow. *)
Definition seen {V : Type} (c : codec V) (k : nat) (bs : list byte) : list V :=
  values c k (bs ++ repeat 0%Z (cd_size c * k)).

(** A length rounded up to whole pages. *)
Definition paged (pg n : nat) : nat := (n + (pg - 1)) / pg * pg.

(** The same graph with other weights, also of another type. *)
Definition coo_reweigh {W W' : Type} (c : coo W) (ws : list W') : coo W' :=
  mkCoo (co_x c) (co_y c) (map Some ws) (co_n c) (co_nrows c) (co_ncols c) (co_m c).
Definition csr_reweigh {W W' : Type} (c : csr W) (ws : list W') : csr W' :=
  mkCsr (cs_off c) (cs_end c) (map Some ws) (cs_n c) (cs_m c) (cs_nrows c) (cs_ncols c).
