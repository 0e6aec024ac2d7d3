(** * CrashText: a text write that does not come to its end

    [COO::write] and [Tensor::write] store into a shared mapping of the new file
    (pigo.impl.hpp:36-43 and 67-69): when the process dies the file holds what
    has been stored until then.  Each thread of the team has then made the first
    [n] of its stores, for some [n] of its own, in some interleaving.  The
    simplifications are those of [Ascii] (one byte per store). *)

From Verif Require Import Base Sched Coo Ascii Codec Bin TensorOut.

(** The first [n] instructions of each program. *)
Definition firsts {I : Type} (ns : list nat) (ps : list (list I)) : list (list I) :=
  map (fun q => firstn (fst q) (snd q)) (combine ns ps).

(** [COO::write], coo.impl.hpp:570-657, when thread [t] has made [ns_t] stores. *)
Definition coo_write_stopped {W : Type} (lf : fmt Z) (wf : option (fmt W)) (c : coo W) (parts : list (list nat)) (ns sched : list nat) : res (list byte) :=
  '(f, ps) <- coo_write_plan lf wf c parts ;; run pexec sched (firsts ns ps) f.

(** A file written in two passes ([TensorOut.gwrite]), the same. *)
Definition gwrite_stopped (esize : nat -> res nat) (eputs : Z -> nat -> res (list put * Z)) (parts : list (list nat)) (ns sched : list nat) : res (list byte) :=
  '(f, ps) <- gplan esize eputs parts ;; run pexec sched (firsts ns ps) f.

(** [Tensor::write], tensor.impl.hpp:286-371, the same. *)
Definition tensor_write_stopped {W : Type} (O : ity) (lf : fmt Z) (wf : option (fmt W)) (t : tensor W) : list (list nat) -> list nat -> list nat -> res (list byte) :=
  gwrite_stopped (tentry_size O lf wf t) (tentry_puts O lf wf t).
