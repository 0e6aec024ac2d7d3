(** * FindOff: [FileReader::find_offsets]

    Model of include/pigo/impl/pigo.impl.hpp:513-625.  The team has the same
    size in all three parallel regions (521-526, 530-577, 584-622); the prefix
    sums of 568-576 are [prefix_sums]. *)

From Verif Require Import Base Reader Sched Coo Codec Bin Load Tensor.

(** The part of the file of thread [t], pigo.impl.hpp:539-554 (and 592-607): the
    start of its reader and its end. *)
Definition fo_chunk (m : mem) (c : byte) (d0 e T t : nat) : res (nat * nat) :=
  let tsize := e - d0 in
  let rs := advance e d0 ((t * tsize) / T) in
  let re := advance e d0 (((t + 1) * tsize) / T) in
  re' <- move_to m c e re ;;
  rs' <- (if t =? 0 then Ok rs else move_to m c e rs) ;;
  Ok (rs', smaller_end e re').

(** Pass 1 of a thread, pigo.impl.hpp:559-564.  The load at 562 is not guarded. *)
Fixpoint fo_count (m : mem) (c : byte) (e : nat) (fuel : nat) (d ct : nat) : res nat :=
  match fuel with
  | O => Stuck
  | S fuel' =>
      if d <? e then
        d' <- move_to m c e d ;;
        x <- load m d' ;;
        fo_count m c e fuel' d' (if (x =? c)%Z then ct + 1 else ct)
      else Ok ct
  end.

(** Pass 2 of a thread, pigo.impl.hpp:612-621: its stores, in order.  The
    difference [rs_p1.d - r.d] is converted to the label type. *)
Fixpoint fo_set (L : ity) (m : mem) (c : byte) (d0 e : nat) (fuel : nat) (d pos : nat) : res (list (tinstr unit)) :=
  match fuel with
  | O => Stuck
  | S fuel' =>
      if d <? e then
        d' <- move_to m c e d ;;
        x <- load m d' ;;
        if (x =? c)%Z then
          rest <- fo_set L m c d0 e fuel' d' (pos + 1) ;;
          Ok (SetC pos (wrap L (Z.of_nat (d' - d0))) :: rest)
        else fo_set L m c d0 e fuel' d' pos
      else Ok []
  end.

(** [find_offsets<R>(c)], pigo.impl.hpp:515-625, for [R] a [Tensor] (its
    constructor, tensor.hpp:154-157). *)
Definition find_offsets (L O : ity) (m : mem) (c : byte) (d0 e T : nat) (sched : list nat) : res (tensor unit) :=
  chunks <- mapM (fo_chunk m c d0 e T) (seq 0 T) ;;
  counts <- mapM (fun ch => fo_count m c (snd ch) (S (snd ch - fst ch)) (fst ch) 0) chunks ;;
  let m_ := wrap O (Z.of_nat (sum_nat counts)) in
  '(c0, w0) <- tensor_alloc (W := unit) O false 1 m_ ;;
  ps <- mapM (fun cs => fo_set L m c d0 (snd (fst cs)) (S (snd (fst cs) - fst (fst cs))) (fst (fst cs)) (snd cs))
         (combine chunks (prefix_sums 0 counts)) ;;
  st <- run texec sched ps (mkTst c0 w0) ;;
  Ok (mkTensor (tc st) (tw st) 1 m_).
