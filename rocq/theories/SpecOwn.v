(** * SpecOwn: what a client of COO and Tensor expects of copying and freeing

    Containers as plain values: every variable holds its own header, its count
    and its arrays; copying copies the value, freeing empties it.  No storage,
    no sharing.  [does] says which operations make sense on which values: it is
    what a careful client does (no access outside the arrays, no use of an
    element that was never set, no use of a variable out of scope). *)

From Coq Require Import Permutation.
From Verif Require Import Base Own.

(** The value of a container: its type, its header ([n, nrows, ncols] of a COO,
    [order] of a Tensor), its number of entries and its arrays. An element that
    was never set is [None]. *)
Record value := mkValue {
  vcls : cls;
  vhdr : list nat;
  vm : nat;
  varr : list (list (option Z)) }.

Definition vars := list (option value).

(** A new array of [n] elements; only [std::vector] sets them. *)
Definition new_array (k : kind) (n : nat) : list (option Z) :=
  repeat (match k with Vec => Some 0%Z | _ => None end) n.

(** The arrays: the two coordinate arrays of a COO, the one of a Tensor, then
    the weights if there are any; with their storage and their lengths. *)
Definition arrays (c : cls) (hdr : list nat) (m : nat) : list (kind * nat) :=
  match c with
  | CCoo s ws weighted => [(s, m); (s, m)] ++ (if weighted then [(ws, m)] else [])
  | CTensor s ws weighted => [(s, nth 0 hdr 0 * m)] ++ (if weighted then [(ws, m)] else [])
  end.

(** The header of a default-constructed container, and after [free()]: a COO
    keeps its dimensions, a Tensor has order 0. *)
Definition default_hdr (c : cls) : list nat :=
  match c with CCoo _ _ _ => [0; 0; 0] | CTensor _ _ _ => [0] end.
Definition hdr_after_free (c : cls) (hdr : list nat) : list nat :=
  match c with CCoo _ _ _ => hdr | CTensor _ _ _ => [0] end.

(** The container without entries. *)
Definition no_entries (c : cls) (hdr : list nat) : value :=
  mkValue c hdr 0 (map (fun _ => []) (arrays c hdr 0)).

(** Every element has been set. *)
Definition all_set (v : value) : Prop := Forall (Forall (fun x => x <> None)) (varr v).

(** Every iteration of every copy loop happens once, in any order. *)
Definition any_order (v : value) (ords : list (list nat)) : Prop :=
  Forall2 (fun ord kn => Permutation ord (seq 0 (snd kn))) ords (arrays (vcls v) (vhdr v) (vm v)).

Definition var (A : vars) (a : nat) (v : value) : Prop := nth_error A a = Some (Some v).

Inductive does : vars -> op -> vars -> list Z -> Prop :=
| does_empty A c :
    does A (OEmpty c) (A ++ [Some (no_entries c (default_hdr c))]) []
| does_new A c hdr m :
    length hdr = length (default_hdr c) ->
    does A (ONew c hdr m)
         (A ++ [Some (mkValue c hdr m
                 (map (fun kn => new_array (fst kn) (snd kn)) (arrays c hdr m)))]) []
| does_copy A a ords v :
    var A a v -> all_set v -> any_order v ords ->
    does A (OCopy a ords) (A ++ [Some v]) []
| does_assign A a b ords v w :
    var A a v -> var A b w -> vcls v = vcls w ->
    (a <> b -> all_set w /\ any_order w ords) ->
    does A (OAssign a b ords) (lset A a (Some w)) []
| does_free A a v :
    var A a v -> 0 < vm v ->
    does A (OFree a) (lset A a (Some (no_entries (vcls v) (hdr_after_free (vcls v) (vhdr v))))) []
| does_free_empty A a v :
    var A a v -> vm v = 0 ->
    does A (OFree a) A []
| does_transpose A a s ws wgt hdr m x y rest :
    var A a (mkValue (CCoo s ws wgt) hdr m (x :: y :: rest)) ->
    does A (OTranspose a) (lset A a (Some (mkValue (CCoo s ws wgt) hdr m (y :: x :: rest)))) []
| does_hdr A a s ws wgt hdr hdr' m arr :
    var A a (mkValue (CCoo s ws wgt) hdr m arr) -> length hdr' = 3 ->
    does A (OHdr a hdr') (lset A a (Some (mkValue (CCoo s ws wgt) hdr' m arr))) []
| does_set A a k i z v arr :
    var A a v -> nth_error (varr v) k = Some arr -> i < length arr ->
    does A (OSet a k i z)
         (lset A a (Some (mkValue (vcls v) (vhdr v) (vm v) (lset (varr v) k (lset arr i (Some z)))))) []
| does_get A a k i v arr z :
    var A a v -> nth_error (varr v) k = Some arr -> nth_error arr i = Some (Some z) ->
    does A (OGet a k i) A [z]
| does_info A a v :
    var A a v ->
    does A (OInfo a) A (map Z.of_nat (vm v :: vhdr v))
| does_drop A a v :
    var A a v ->
    does A (ODrop a) (lset A a None) [].

(** A program: the variables before, the operations, the variables after, what
    is printed. *)
Inductive does_all : vars -> list op -> vars -> list Z -> Prop :=
| does_nil A : does_all A [] A []
| does_cons A x A1 out xs A2 outs :
    does A x A1 out -> does_all A1 xs A2 outs -> does_all A (x :: xs) A2 (out ++ outs).

(** A tidy client calls [free()] before a container of raw pointers goes out of
    scope (coo.hpp:298-304: PIGO leaves that to the client). *)
Definition tidy_op (A : vars) (x : op) : Prop :=
  match x with
  | ODrop a => forall v, var A a v -> vm v = 0 \/ ~ In Ptr (map fst (arrays (vcls v) (vhdr v) (vm v)))
  | _ => True
  end.

Inductive does_tidily : vars -> list op -> vars -> list Z -> Prop :=
| tidily_nil A : does_tidily A [] A []
| tidily_cons A x A1 out xs A2 outs :
    tidy_op A x -> does A x A1 out -> does_tidily A1 xs A2 outs ->
    does_tidily A (x :: xs) A2 (out ++ outs).

(** The operation does not change variable [a] (it may copy it). *)
Definition spares (a : nat) (x : op) : Prop :=
  match x with
  | OAssign b _ _ | OFree b | OTranspose b | OHdr b _ | OSet b _ _ _ | ODrop b => b <> a
  | _ => True
  end.
