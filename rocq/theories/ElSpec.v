(** * ElSpec: vocabulary of the edge-list properties

    Kinds of weights, and what a COO read from a file must contain.  Uses the
    file grammar of [Spec] and the COO object of [Coo], none of the reader. *)

From Verif Require Import Base Spec SpecFp Coo WeightLemmas.

(** The supported weight types: unsigned integers, signed integers, floating
    point numbers (with their arithmetic). *)
Inductive wkind := WUnsigned (t : ity) | WSigned (t : ity) | WFloat (F : fpops).

Definition wtype (k : wkind) : Type := match k with WFloat F => fpT F | _ => Z end.
Definition wreader (k : wkind) : wrd (wtype k) :=
  match k with
  | WUnsigned t => wr_unsigned t
  | WSigned t => wr_signed t
  | WFloat F => wr_float F
  end.
Definition wf_kind (k : wkind) : Prop :=
  match k with
  | WUnsigned t => is_ity t /\ isigned t = false
  | WSigned t => is_ity t /\ isigned t = true
  | WFloat _ => True
  end.

(** The rest of a line holds the weight [v]. *)
Definition wpost (k : wkind) : list byte -> wtype k -> Prop :=
  match k with
  | WUnsigned t => fun post v => post_unsigned post v /\ (v <= imax t)%Z
  | WSigned t => fun post v => post_signed post v /\ (- imax t <= v <= imax t)%Z
  | WFloat F => fun post v => exists f, post_float post f /\ v = fp_value F f
  end.
Definition weights_are (k : wkind) (f : el_file) (ws : list (wtype k)) : Prop :=
  Forall2 (wpost k) (map l_post (el_lines f)) ws.

(** The file has a size that is not a multiple of the page size. *)
Definition off_page (pg : nat) (s : list byte) : Prop := 0 < pg /\ length s mod pg <> 0.

(** The triples of a file with given weights. *)
Definition triples {W} (f : el_file) (ws : list W) : list (Z * Z * W) :=
  map (fun p => (fst (fst p), snd (fst p), snd p)) (combine (el_pairs f) ws).
Definition no_weights (f : el_file) : list unit := map (fun _ => tt) (el_pairs f).

(** Is entry [e] dropped by the flags? *)
Definition keeps {W} (fl : flags) (e : Z * Z * W) : Prop :=
  expand (f_sym fl) (f_ut fl) (f_sl fl) e <> [].

(** The entries a COO with flags [fl] stores for the triples [l]. *)
Definition stored {W} (fl : flags) (l : list (Z * Z * W)) : list (Z * Z * W) :=
  flat_map (expand (f_sym fl) (f_ut fl) (f_sl fl)) l.
Definition counted {W} (fl : flags) (l : list (Z * Z * W)) : list (Z * Z * W) :=
  flat_map (kept (f_sym fl) (f_ut fl) (f_sl fl)) l.

(** [c] holds exactly the entries [es], in this order. *)
Definition holds {W} (c : coo W) (es : list (Z * Z * W)) : Prop :=
  co_m c = Z.of_nat (length es) /\
  co_x c = map (fun e => Some (fst (fst e))) es /\
  co_y c = map (fun e => Some (snd (fst e))) es.
Definition holds_weights {W} (c : coo W) (es : list (Z * Z * W)) : Prop :=
  co_w c = map (fun e => Some (snd e)) es.

Definition dims {W} (c : coo W) (nr nc : Z) : Prop :=
  co_nrows c = Some nr /\ co_ncols c = Some nc /\ co_n c = Some (Z.max nr nc).

(** ** Cells *)
Inductive cell := CX (i : nat) | CY (i : nat) | CW (i : nat).
Definition writes {W} (i : cinstr W) : list cell :=
  match i with
  | SetX i _ => [CX i] | SetY i _ => [CY i] | SetW i _ => [CW i] | CopyW _ b => [CW b]
  end.
Definition reads {W} (i : cinstr W) : list cell :=
  match i with CopyW a _ => [CW a] | _ => [] end.
Definition cell_ok (weighted : bool) (n : nat) (c : cell) : Prop :=
  match c with
  | CX i | CY i => i < n
  | CW i => weighted = true /\ i < n
  end.

(** The stores of the threads of a team, each thread a list of instructions on
    arrays of [n] cells: every cell is written exactly once, no access is out
    of bounds, and what one thread accesses no other thread writes. *)
Definition race_free {W} (weighted : bool) (n : nat) (progs : list (list (cinstr W))) : Prop :=
  NoDup (flat_map writes (concat progs)) /\
  (forall c, In c (flat_map writes (concat progs)) <-> cell_ok weighted n c) /\
  (forall c, In c (flat_map reads (concat progs)) -> cell_ok weighted n c) /\
  (forall i j p q c, i <> j -> nth_error progs i = Some p -> nth_error progs j = Some q ->
     In c (flat_map writes p) \/ In c (flat_map reads p) -> ~ In c (flat_map writes q)).
