(** * TensorOut: writing tensors as text, and the largest labels

    Model of include/pigo/impl/tensor.impl.hpp:286-419. *)

From Verif Require Import Base Sched Coo Ascii Codec Bin.

(** ** A file written in two passes

    [esize e] is the size announced for entry [e], [eputs fp e] are the stores
    for it at file position [fp] and the new position.  tensor.impl.hpp:306-369,
    the same structure as coo.impl.hpp:588-655. *)
Section TwoPass.
  Variable esize : nat -> res nat.
  Variable eputs : Z -> nat -> res (list put * Z).

  (** tensor.impl.hpp:318-334 *)
  Fixpoint gsizes (es : list nat) (acc : nat) : res nat :=
    match es with
    | [] => Ok acc
    | e :: es' => s <- esize e ;; gsizes es' (acc + s)
    end.
  (** tensor.impl.hpp:355-369 *)
  Fixpoint gputs (fp : Z) (es : list nat) : res (list put) :=
    match es with
    | [] => Ok []
    | e :: es' => '(p, fp') <- eputs fp e ;; r <- gputs fp' es' ;; Ok (p ++ r)
    end.
  (** tensor.impl.hpp:336-352: prefix sums of the announced sizes, the file, the
      position of each thread.  [parts]: the iterations of each thread. *)
  Definition gplan (parts : list (list nat)) : res (list byte * list (list put)) :=
    ss <- mapM (fun es => gsizes es 0) parts ;;
    f <- new_file (sum_nat ss) ;;
    ps <- mapM (fun q => gputs (Z.of_nat (fst q)) (snd q)) (combine (prefix_sums 0 ss) parts) ;;
    Ok (f, ps).
  Definition gwrite (parts : list (list nat)) (sched : list nat) : res (list byte) :=
    '(f, ps) <- gplan parts ;; run pexec sched ps f.
End TwoPass.

(** [e*order_+idx] in the promoted ordinal type, tensor.impl.hpp:321, 358 and
    403. *)
Definition tindex (O : ity) (order : Z) (e idx : nat) : res nat :=
  p <- omul O (Z.of_nat e) order ;;
  i <- (if (ibits O <? 32)%Z then (if (p + Z.of_nat idx <=? imax i32)%Z then Ok (p + Z.of_nat idx)%Z else UB)
        else arith O (p + Z.of_nat idx)%Z) ;;
  Ok (Z.to_nat i).

Section Write.
  Context {W : Type}.
  Variable O : ity.
  Variable lf : fmt Z.              (* Label *)
  Variable wf : option (fmt W).     (* Weight, if weighted *)
  Variable t : tensor W.
  Let order := Z.to_nat (te_order t).

  Definition tlabel (e idx : nat) : res Z := i <- tindex O (te_order t) e idx ;; cell_of i (te_c t).

  (** The labels of one entry in the sizing pass, tensor.impl.hpp:320-325, from
      label [idx] on, [n] labels. *)
  Fixpoint tlabels_size (e n idx : nat) : res nat :=
    match n with
    | 0 => Ok 0
    | S n' => x <- tlabel e idx ;; s <- f_size lf x ;; r <- tlabels_size e n' (S idx) ;; Ok (s + 1 + r)
    end.
  (** tensor.impl.hpp:319-333 *)
  Definition tentry_size (e : nat) : res nat :=
    s <- tlabels_size e order 0 ;;
    sw <- match wf with
          | None => Ok 0
          | Some w => v <- cell_of e (te_w t) ;; s <- f_size w v ;; Ok (1 + s)
          end ;;
    Ok (s + sw).

  (** tensor.impl.hpp:357-362 *)
  Fixpoint tlabels_puts (e n idx : nat) (fp : Z) : res (list put * Z) :=
    match n with
    | 0 => Ok ([], fp)
    | S n' =>
        x <- tlabel e idx ;;
        '(p, f1) <- f_put lf fp x ;;
        let sp := if idx <? order - 1 then [Put f1 ch_sp] else [] in
        let f2 := if idx <? order - 1 then (f1 + 1)%Z else f1 in
        '(r, f3) <- tlabels_puts e n' (S idx) f2 ;;
        Ok (p ++ sp ++ r, f3)
    end.
  (** tensor.impl.hpp:356-369 *)
  Definition tentry_puts (fp : Z) (e : nat) : res (list put * Z) :=
    '(p, f1) <- tlabels_puts e order 0 fp ;;
    '(pw, f2) <- match wf with
          | None => Ok ([], f1)
          | Some w => v <- cell_of e (te_w t) ;;
                      '(q, f') <- f_put w (f1 + 1) v ;; Ok (Put f1 ch_sp :: q, f')
          end ;;
    Ok (p ++ pw ++ [Put f2 ch_nl], (f2 + 1)%Z).

  (** [Tensor::write], tensor.impl.hpp:286-371. *)
  Definition tensor_write_plan : list (list nat) -> res (list byte * list (list put)) := gplan tentry_size tentry_puts.
  Definition tensor_write : list (list nat) -> list nat -> res (list byte) := gwrite tentry_size tentry_puts.
End Write.

(** ** [Tensor::max_labels], tensor.impl.hpp:373-419 *)
Section Max.
  Context {W : Type}.
  Variable O : ity.
  Variable t : tensor W.
  Let order := Z.to_nat (te_order t).

  (** [if (val > my_maxes[idx]) my_maxes[idx] = val], tensor.impl.hpp:402-405, and
      the same at 414. *)
  Definition upd_max (v m : Z) : Z := if (m <? v)%Z then v else m.
  Fixpoint entry_max (e idx : nat) (ms : list Z) : res (list Z) :=
    match ms with
    | [] => Ok []
    | m :: ms' => v <- tlabel O t e idx ;; r <- entry_max e (S idx) ms' ;; Ok (upd_max v m :: r)
    end.
  Fixpoint part_max (es : list nat) (ms : list Z) : res (list Z) :=
    match es with
    | [] => Ok ms
    | e :: es' => ms' <- entry_max e 0 ms ;; part_max es' ms'
    end.
  (** The threads run independently, each on its own maxima; [parts] lists the
      iterations each executes.  Then the maxima are combined in thread order. *)
  Definition max_labels (parts : list (list nat)) : res (list Z) :=
    ms <- mapM (fun es => part_max es (repeat 0%Z order)) parts ;;
    Ok (fold_left (fun acc m => map (fun p => upd_max (snd p) (fst p)) (combine acc m)) ms (repeat 0%Z order)).
End Max.
