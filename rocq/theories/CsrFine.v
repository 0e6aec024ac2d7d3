(** * CsrFine: [convert_coo_] with every access to shared memory an action

    [convert_coo] (Csr.v) reads the degrees, the per-thread sums and the
    offsets in one go, on the ground that barriers separate them from the
    writes.  Here the code is modelled barrier interval by barrier interval,
    with the shared arrays [all_degs], [label_degs], [start_offsets] and the
    locals of every thread, each action logging the accesses it makes.

    Simplification: loads from arrays that no thread writes in the interval
    belong to the action that uses the value; they are logged. *)

From Verif Require Import Base Sched Coo Ascii Csr SpecRace Race.

(** The shared arrays of csr.impl.hpp:106-254 and 530-718 ([Src...]: the arrays
    of the CSR that is sorted or read by [new_csr_without_dups], whose [degs] is
    [AllDegs]). *)
Inductive arr := AllDegs | LabelDegs | StartOffsets | Offsets | Endpoints | Weights | CooX | CooY | CooW
  | SrcOffsets | SrcEnds | SrcWeights.
Definition floc : Type := (arr * nat)%type.

Definition rd (a : arr) (i : nat) : access floc := ((a, i), Read).
Definition wr (a : arr) (i : nat) : access floc := ((a, i), Write).
Definition at_ (a : arr) (i : nat) : access floc := ((a, i), Atomic).

(** The shared arrays, and the locals of the threads (one cell per thread):
    [this_deg], [my_degs], [total_degs], [cur_offset], [this_offset_pos]. *)
Record fst_ (W : Type) := mkF {
  f_deg : list (option Z);
  f_lab : list (option Z);
  f_start : list (option Z);
  f_off : list (option Z);
  f_end : list (option Z);
  f_w : list (option W);
  f_this : list (option Z);
  f_my : list (option Z);
  f_tot : list (option Z);
  f_cur : list (option Z);
  f_pos : list (option Z)
}.
Arguments mkF {W}.
Arguments f_deg {W}. Arguments f_lab {W}. Arguments f_start {W}. Arguments f_off {W}.
Arguments f_end {W}. Arguments f_w {W}. Arguments f_this {W}. Arguments f_my {W}.
Arguments f_tot {W}. Arguments f_cur {W}. Arguments f_pos {W}.

(** The actions, with their lines in csr.impl.hpp. *)
Inductive finstr :=
| FZero (v : nat)      (* 164-165: all_degs[v] = 0 *)
| FInc (e : nat)       (* 172-175: atomic ++all_degs[coo_x[e]] *)
| FMy0                 (* 182: my_degs = 0 *)
| FLoad (v : nat)      (* 184: this_deg = all_degs[v] *)
| FLabel (v : nat)     (* 185-186: label_degs[v] = this_deg; my_degs += this_deg *)
| FStart               (* 190: start_offsets[tid] = my_degs *)
| FTot0                (* 197: total_degs = 0 *)
| FSum (t : nat)       (* 199-200: total_degs += start_offsets[t]; start_offsets[t] = total_degs *)
| FCur                 (* 207-209: cur_offset = 0 or start_offsets[tid-1] *)
| FOff (v : nat)       (* 213: offsets[v] = cur_offset *)
| FAdd (v : nat)       (* 214: cur_offset += label_degs[v] *)
| FLast                (* 220: offsets[n] = m *)
| FCap (e : nat)       (* 233, 236-241: atomic capture of label_degs[src] *)
| FEnd (e : nat)       (* 233-234, 242-243: endpoints[offsets[src+1] - this_offset_pos] = dst *)
| FW (e : nat).        (* 244: the same for the weight *)

Section Fine.
  Context {W : Type}.
  Variable O : ity.
  (** Whether the code works on a copy [label_degs] of the degrees, as
      [convert_coo_] does (185, 214), or on the degrees themselves, as
      [new_csr_without_dups] does (635-686, which is the same code otherwise). *)
  Variable cp : bool.
  Variable c : coo W.
  Variable n : nat.
  Variable m : Z.

  (** [this_offset], csr.impl.hpp:242, computed by thread [t] for entry [e]. *)
  Definition f_slot (t e : nat) (s : fst_ W) : res nat :=
    x <- cell_of e (co_x c) ;; i <- idx x ;;
    r <- cell_of t (f_pos s) ;;
    o <- cell_of (S i) (f_off s) ;;
    p <- arith O (o - r)%Z ;;
    idx p.

  Definition fexec (t : nat) (i : finstr) (s : fst_ W) : res (fst_ W) :=
    let '(mkF deg lab start off en w this my tot cur pos) := s in
    match i with
    | FZero v => deg' <- aset v 0%Z deg ;; Ok (mkF deg' lab start off en w this my tot cur pos)
    | FInc e =>
        x <- cell_of e (co_x c) ;; j <- idx x ;;
        d <- cell_of j deg ;; d' <- arith O (d + 1)%Z ;;
        deg' <- aset j d' deg ;; Ok (mkF deg' lab start off en w this my tot cur pos)
    | FMy0 => my' <- aset t 0%Z my ;; Ok (mkF deg lab start off en w this my' tot cur pos)
    | FLoad v => d <- cell_of v deg ;; this' <- aset t d this ;; Ok (mkF deg lab start off en w this' my tot cur pos)
    | FLabel v =>
        d <- cell_of t this ;; lab' <- (if cp then aset v d lab else Ok lab) ;;
        a <- cell_of t my ;; a' <- arith O (a + d)%Z ;;
        my' <- aset t a' my ;; Ok (mkF deg lab' start off en w this my' tot cur pos)
    | FStart => a <- cell_of t my ;; start' <- aset t a start ;; Ok (mkF deg lab start' off en w this my tot cur pos)
    | FTot0 => tot' <- aset t 0%Z tot ;; Ok (mkF deg lab start off en w this my tot' cur pos)
    | FSum j =>
        a <- cell_of t tot ;; b <- cell_of j start ;; a' <- arith O (a + b)%Z ;;
        tot' <- aset t a' tot ;; start' <- aset j a' start ;;
        Ok (mkF deg lab start' off en w this my tot' cur pos)
    | FCur =>
        a <- match t with 0 => Ok 0%Z | S t' => cell_of t' start end ;;
        cur' <- aset t a cur ;; Ok (mkF deg lab start off en w this my tot cur' pos)
    | FOff v => a <- cell_of t cur ;; off' <- aset v a off ;; Ok (mkF deg lab start off' en w this my tot cur pos)
    | FAdd v =>
        a <- cell_of t cur ;; d <- cell_of v (if cp then lab else deg) ;; a' <- arith O (a + d)%Z ;;
        cur' <- aset t a' cur ;; Ok (mkF deg lab start off en w this my tot cur' pos)
    | FLast => off' <- aset n m off ;; Ok (mkF deg lab start off' en w this my tot cur pos)
    | FCap e =>
        x <- cell_of e (co_x c) ;; j <- idx x ;;
        r <- cell_of j lab ;; r' <- arith O (r - 1)%Z ;;
        lab' <- aset j r' lab ;; pos' <- aset t r pos ;;
        Ok (mkF deg lab' start off en w this my tot cur pos')
    | FEnd e =>
        y <- cell_of e (co_y c) ;; p <- f_slot t e s ;;
        en' <- aset p y en ;; Ok (mkF deg lab start off en' w this my tot cur pos)
    | FW e =>
        v <- cell_of e (co_w c) ;; p <- f_slot t e s ;;
        w' <- aset p v w ;; Ok (mkF deg lab start off en w' this my tot cur pos)
    end.

  (** The entry of an array used as an index, for the log. *)
  Definition at_src (e : nat) (k : nat -> list (access floc)) : list (access floc) :=
    match x <- cell_of e (co_x c) ;; idx x with Ok j => k j | _ => [] end.
  Definition at_slot (t e : nat) (s : fst_ W) (k : nat -> list (access floc)) : list (access floc) :=
    match f_slot t e s with Ok p => k p | _ => [] end.

  (** The accesses to shared memory of an action that does not fail. *)
  Definition facc (t : nat) (i : finstr) (s : fst_ W) : list (access floc) :=
    match i with
    | FZero v => [wr AllDegs v]
    | FInc e => rd CooX e :: at_src e (fun j => [at_ AllDegs j])
    | FMy0 | FTot0 => []
    | FLoad v => [rd AllDegs v]
    | FLabel v => if cp then [wr LabelDegs v] else []
    | FStart => [wr StartOffsets t]
    | FSum j => [rd StartOffsets j; wr StartOffsets j]
    | FCur => match t with 0 => [] | S t' => [rd StartOffsets t'] end
    | FOff v => [wr Offsets v]
    | FAdd v => [rd (if cp then LabelDegs else AllDegs) v]
    | FLast => [wr Offsets n]
    | FCap e => rd CooX e :: at_src e (fun j => [at_ LabelDegs j])
    | FEnd e => rd CooX e :: rd CooY e :: at_src e (fun j => [rd Offsets (S j)]) ++ at_slot t e s (fun p => [wr Endpoints p])
    | FW e => rd CooX e :: rd CooW e :: at_src e (fun j => [rd Offsets (S j)]) ++ at_slot t e s (fun p => [wr Weights p])
    end.
End Fine.

(** The programs of the threads, interval by interval.  [T] is the team size;
    [parts] distributes the iterations of an [omp for]. *)
Definition zero_progs (parts : list (list nat)) : list (list finstr) := map (map FZero) parts.
Definition inc_progs (parts : list (list nat)) : list (list finstr) := map (map FInc) parts.
Definition label_prog (n T t : nat) : list finstr :=
  FMy0 :: flat_map (fun v => [FLoad v; FLabel v]) (vrange n T t) ++ [FStart].
Definition sum_prog (T : nat) : list finstr := FTot0 :: map FSum (seq 0 T).
Definition off_prog_f (n T t : nat) : list finstr :=
  FCur :: flat_map (fun v => [FOff v; FAdd v]) (vrange n T t).
Definition scatter_prog_f (weighted : bool) (es : list nat) : list finstr :=
  flat_map (fun e => [FCap e; FEnd e] ++ if weighted then [FW e] else []) es.

(** What the run time system chooses: the team size, which thread runs which of
    the two [single] blocks, the distribution of the iterations of the three
    loops, and the interleaving of each interval. *)
Record fchoice := mkFch {
  fc_T : nat;
  fc_sum : nat;
  fc_last : nat;
  fc_parts0 : list (list nat);
  fc_parts1 : list (list nat);
  fc_parts2 : list (list nat);
  fc_s0 : list nat; fc_s1 : list nat; fc_s2 : list nat; fc_s3 : list nat; fc_s4 : list nat; fc_s5 : list nat
}.

(** [convert_coo_], csr.impl.hpp:106-254: the new CSR and the logs of the six
    barrier intervals.  The barriers are the implicit ones at the end of the
    loops at 163 and 171, the explicit ones at 179, 194, 203 and 223 and the
    implicit ones of the [single] blocks at 195 and 216 (which the explicit
    ones follow at once). *)
Definition convert_coo_fine {W : Type} (L O : ity) (weighted : bool) (c : coo W) (ch : fchoice)
  : res (csr W * list (log floc)) :=
  match co_n c with
  | None => UB
  | Some n =>
      let m := co_m c in
      '(ends, ws, offs) <- csr_alloc L weighted n m ;;
      if (n <? 0)%Z then Throw EError      (* new O[n_] *)
      else
        let n' := Z.to_nat n in
        let T := fc_T ch in
        let go := interval (fexec O true c n' m) (facc O true c n') in
        let s := mkF (fresh n') (fresh n') (fresh T) offs ends ws
                     (fresh T) (fresh T) (fresh T) (fresh T) (fresh T) in
        '(s, l0) <- go (fc_s0 ch) (zero_progs (fc_parts0 ch)) s ;;
        '(s, l1) <- go (fc_s1 ch) (inc_progs (fc_parts1 ch)) s ;;
        '(s, l2) <- go (fc_s2 ch) (map (label_prog n' T) (seq 0 T)) s ;;
        '(s, l3) <- go (fc_s3 ch) (map (fun t => if t =? fc_sum ch then sum_prog T else []) (seq 0 T)) s ;;
        '(s, l4) <- go (fc_s4 ch) (map (fun t => off_prog_f n' T t ++ if t =? fc_last ch then [FLast] else []) (seq 0 T)) s ;;
        '(s, l5) <- go (fc_s5 ch) (map (scatter_prog_f weighted) (fc_parts2 ch)) s ;;
        Ok (mkCsr (f_off s) (f_end s) (f_w s) n m (co_nrows c) (co_ncols c), [l0; l1; l2; l3; l4; l5])
  end.
