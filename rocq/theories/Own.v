(** * Own: who owns the arrays of a COO, a Tensor and a CSR

    The rest of the model treats the arrays of a container as values.  This
    file models what the library really keeps: handles to blocks of storage,
    with [malloc], [free], [std::vector] and [std::shared_ptr] underneath
    (pigo.hpp:485-585), and the copy constructor, the copy assignment,
    [free()], [transpose()] and the end of scope of a container on top.

    Simplifications.
    - An element of an array is an integer; labels, ordinals and weights are
      only moved here, never computed with.
    - An allocation succeeds (pigo.hpp:503-504 throws when it does not), and
      [malloc(0)] returns a block of no elements.
    - A [std::vector] is a handle to the one block that holds its elements, so
      a pointer kept by the user into its buffer is not followed.
    - The two loops of a copy are run one array after the other; inside one
      array the iterations come in an order that is a parameter of the
      operation.
    - [order_*m_] does not wrap. *)

From Verif Require Import Base.

(** ** Storage

    A block is live, with the number of [shared_ptr]s that share it (1 for
    every other kind) and its elements, or it has been given back.  An element
    that was never written has no value: loading it is undefined. *)
Inductive block :=
| Live (rc : nat) (cells : list (option Z))
| Freed.

Definition heap := list block.

(** The three kinds of storage a container can be instantiated with
    (pigo.hpp:499-526): raw pointer, vector, shared pointer. *)
Inductive kind := Ptr | Vec | Sptr.

(** What a member such as [x_] holds: a block, or nothing: an indeterminate
    raw pointer, a vector without elements, a null shared pointer. *)
Definition handle := option nat.

Definition hblock (h : heap) (p : nat) : block := nth p h Freed.

Fixpoint lset {A : Type} (l : list A) (i : nat) (a : A) : list A :=
  match l, i with
  | [], _ => []
  | _ :: l', O => a :: l'
  | b :: l', S i' => b :: lset l' i' a
  end.

(** Load element [i]: pigo.hpp:714-756 ([get_value_]).  Undefined through a
    handle to nothing or to a block given back, past the end, or on an element
    that has no value. *)
Definition hget (h : heap) (a : handle) (i : nat) : res Z :=
  match a with
  | None => UB
  | Some p =>
      match hblock h p with
      | Freed => UB
      | Live _ cs => match nth_error cs i with Some (Some v) => Ok v | _ => UB end
      end
  end.

(** Store element [i]: pigo.hpp:664-708 ([set_value_]). *)
Definition hset (h : heap) (a : handle) (i : nat) (v : Z) : res heap :=
  match a with
  | None => UB
  | Some p =>
      match hblock h p with
      | Freed => UB
      | Live rc cs => if i <? length cs then Ok (lset h p (Live rc (lset cs i (Some v)))) else UB
      end
  end.

(** [free(3)]: undefined on an indeterminate pointer and on a block that was
    given back before. *)
Definition hfree (h : heap) (a : handle) : res heap :=
  match a with
  | None => UB
  | Some p => match hblock h p with Freed => UB | Live _ _ => Ok (lset h p Freed) end
  end.

(** One owner of a vector's buffer or of a shared block goes away. *)
Definition release (h : heap) (a : handle) : res heap :=
  match a with
  | None => Ok h
  | Some p =>
      match hblock h p with
      | Freed => UB
      | Live (S (S rc)) cs => Ok (lset h p (Live (S rc) cs))
      | Live _ _ => Ok (lset h p Freed)
      end
  end.

(** [allocate_mem_] (pigo.hpp:499-549).
    - raw pointer: [malloc], the old value of the pointer is lost;
    - vector: [resize], the elements there are kept up to the new length and
      the new ones are 0;
    - shared pointer: a new block, one owner less for the old one. *)
Definition alloc_mem (k : kind) (h : heap) (a : handle) (n : nat) : res (heap * handle) :=
  match k with
  | Ptr => Ok (h ++ [Live 1 (repeat None n)], Some (length h))
  | Vec =>
      match a with
      | None => Ok (h ++ [Live 1 (repeat (Some 0%Z) n)], Some (length h))
      | Some p =>
          match hblock h p with
          | Freed => UB
          | Live rc cs =>
              Ok (lset h p (Live rc (firstn n cs ++ repeat (Some 0%Z) (n - length cs))), Some p)
          end
      end
  | Sptr =>
      h1 <- release (h ++ [Live 1 (repeat None n)]) a ;;
      Ok (h1, Some (length h))
  end.

(** [free_mem_] (pigo.hpp:552-585): only a raw pointer is given back. *)
Definition free_mem (k : kind) (h : heap) (a : handle) : res heap :=
  match k with
  | Ptr => hfree h a
  | Vec | Sptr => Ok h
  end.

(** The end of scope of a member: PIGO's containers have no destructor, so a
    raw pointer is just forgotten; vectors and shared pointers have theirs. *)
Definition drop_mem (k : kind) (h : heap) (a : handle) : res heap :=
  match k with
  | Ptr => Ok h
  | Vec | Sptr => release h a
  end.

(** ** The containers

    The instantiations that matter here: the storage of the coordinates, of the
    weights, and whether there are weights. *)
Inductive cls :=
| CCoo (s ws : kind) (weighted : bool)
| CTensor (s ws : kind) (weighted : bool).

Definition wkind (ws : kind) (weighted : bool) : list kind := if weighted then [ws] else [].

(** The storage members, in order of declaration: [x_], [y_] and [w_]
    (coo.hpp:77-83); [c_] and [w_] (tensor.hpp:48-51).  Without weights [w_] is
    never allocated, read or freed, so it is left out. *)
Definition kinds (c : cls) : list kind :=
  match c with
  | CCoo s ws wgt => s :: s :: wkind ws wgt
  | CTensor s ws wgt => s :: wkind ws wgt
  end.

(** How many elements each of them gets: coo.impl.hpp:132-136,
    tensor.impl.hpp:51-54; also the bounds of the copy loops, coo.hpp:175-197,
    tensor.hpp:107-125.  The header of a COO is [n_; nrows_; ncols_], that of a
    Tensor is [order_]. *)
Definition sizes (c : cls) (hdr : list nat) (m : nat) : list nat :=
  match c with
  | CCoo _ _ wgt => m :: m :: (if wgt then [m] else [])
  | CTensor _ _ wgt => hd 0 hdr * m :: (if wgt then [m] else [])
  end.

(** The header after the default constructor: coo.hpp:230, tensor.hpp:151. *)
Definition empty_hdr (c : cls) : list nat :=
  match c with CCoo _ _ _ => [0; 0; 0] | CTensor _ _ _ => [0] end.

(** The header after [free()]: coo.hpp:305-312 leaves it, tensor.hpp:193-200
    sets the order to 0. *)
Definition freed_hdr (c : cls) (hdr : list nat) : list nat :=
  match c with CCoo _ _ _ => hdr | CTensor _ _ _ => [0] end.

Record obj := mkObj {
  ocls : cls;
  ohdr : list nat;
  om : nat;
  oarr : list handle }.

(** [allocate_()]: coo.impl.hpp:132-136, tensor.impl.hpp:51-54. *)
Fixpoint alloc_all (h : heap) (ks : list kind) (ns : list nat) (az : list handle)
  : res (heap * list handle) :=
  match ks, ns, az with
  | k :: ks', n :: ns', a :: az' =>
      '(h1, a1) <- alloc_mem k h a n ;;
      '(h2, r) <- alloc_all h1 ks' ns' az' ;;
      Ok (h2, a1 :: r)
  | _, _, _ => Ok (h, [])
  end.

(** One copy loop, its iterations in the order [ord]. *)
Fixpoint copy_arr (h : heap) (dst src : handle) (ord : list nat) : res heap :=
  match ord with
  | [] => Ok h
  | i :: ord' =>
      v <- hget h src i ;;
      h1 <- hset h dst i v ;;
      copy_arr h1 dst src ord'
  end.

(** [copy_()]: coo.hpp:174-198, tensor.hpp:107-126. *)
Fixpoint copy_all (h : heap) (dst src : list handle) (ords : list (list nat)) : res heap :=
  match dst, src, ords with
  | d :: dst', s :: src', ord :: ords' =>
      h1 <- copy_arr h d s ord ;;
      copy_all h1 dst' src' ords'
  | _, _, _ => Ok h
  end.

(** [free()]'s calls of [free_mem_]: coo.hpp:307-309, tensor.hpp:195-196. *)
Fixpoint free_all (h : heap) (ks : list kind) (az : list handle) : res heap :=
  match ks, az with
  | k :: ks', a :: az' => h1 <- free_mem k h a ;; free_all h1 ks' az'
  | _, _ => Ok h
  end.

Fixpoint drop_all (h : heap) (ks : list kind) (az : list handle) : res heap :=
  match ks, az with
  | k :: ks', a :: az' => h1 <- drop_mem k h a ;; drop_all h1 ks' az'
  | _, _ => Ok h
  end.

(** [COO()] / [Tensor()]: coo.hpp:230, tensor.hpp:151.  The raw pointers are
    left indeterminate. *)
Definition obj_empty (c : cls) : obj :=
  mkObj c (empty_hdr c) 0 (map (fun _ => None) (kinds c)).

(** [COO(n, nrows, ncols, m)] / [Tensor(order, m)]: coo.hpp:233-236,
    tensor.hpp:154-157. *)
Definition obj_new (h : heap) (c : cls) (hdr : list nat) (m : nat) : res (heap * obj) :=
  '(h1, az) <- alloc_all h (kinds c) (sizes c hdr m) (map (fun _ => None) (kinds c)) ;;
  Ok (h1, mkObj c hdr m az).

(** The copy constructor: coo.hpp:315-319, tensor.hpp:203-206. *)
Definition obj_copy (h : heap) (o : obj) (ords : list (list nat)) : res (heap * obj) :=
  '(h1, az) <- alloc_all h (kinds (ocls o)) (sizes (ocls o) (ohdr o) (om o))
                         (map (fun _ => None) (kinds (ocls o))) ;;
  h2 <- copy_all h1 az (oarr o) ords ;;
  Ok (h2, mkObj (ocls o) (ohdr o) (om o) az).

(** [free()]: coo.hpp:305-312, tensor.hpp:193-200. *)
Definition obj_free (h : heap) (o : obj) : res (heap * obj) :=
  if 0 <? om o then
    h1 <- free_all h (kinds (ocls o)) (oarr o) ;;
    Ok (h1, mkObj (ocls o) (freed_hdr (ocls o) (ohdr o)) 0 (oarr o))
  else Ok (h, o).

(** The copy assignment between two different objects: coo.hpp:322-334,
    tensor.hpp:209-219. *)
Definition obj_assign (h : heap) (o other : obj) (ords : list (list nat)) : res (heap * obj) :=
  '(h1, o1) <- obj_free h o ;;
  '(h2, az) <- alloc_all h1 (kinds (ocls o1)) (sizes (ocls o1) (ohdr other) (om other)) (oarr o1) ;;
  h3 <- copy_all h2 az (oarr other) ords ;;
  Ok (h3, mkObj (ocls o1) (ohdr other) (om other) az).

(** [transpose()]: coo.hpp:337-340. *)
Definition swap01 {A : Type} (l : list A) : list A :=
  match l with a :: b :: l' => b :: a :: l' | _ => l end.

Definition obj_transpose (o : obj) : obj :=
  mkObj (ocls o) (ohdr o) (om o) (swap01 (oarr o)).

(** ** A client

    A program that declares containers and uses them.  Variables are numbered
    in order of declaration. *)
Inductive op :=
| OEmpty (c : cls)                                   (* C a;              *)
| ONew (c : cls) (hdr : list nat) (m : nat)          (* C a {hdr..., m};  *)
| OCopy (a : nat) (ords : list (list nat))           (* C b {a};          *)
| OAssign (a b : nat) (ords : list (list nat))       (* a = b;            *)
| OFree (a : nat)                                    (* a.free();         *)
| OTranspose (a : nat)                               (* a.transpose();    *)
| OHdr (a : nat) (hdr : list nat)                    (* set_n, set_nrows, set_ncols *)
| OSet (a k i : nat) (v : Z)                         (* a.x()[i] = v;     *)
| OGet (a k i : nat)                                 (* print(a.x()[i]);  *)
| OInfo (a : nat)                                    (* print(a.m(), a.n(), ...); *)
| ODrop (a : nat).                                   (* the scope of a ends *)

Definition env := list (option obj).

Definition look (E : env) (a : nat) : res obj :=
  match nth_error E a with Some (Some o) => Ok o | _ => UB end.

Definition cls_eq_dec (c d : cls) : {c = d} + {c <> d}.
Proof. repeat decide equality. Defined.

(** One operation: the new heap, the new variables, what is printed. *)
Definition step (h : heap) (E : env) (x : op) : res (heap * env * list Z) :=
  match x with
  | OEmpty c => Ok (h, E ++ [Some (obj_empty c)], [])
  | ONew c hdr m =>
      '(h1, o) <- obj_new h c hdr m ;;
      Ok (h1, E ++ [Some o], [])
  | OCopy a ords =>
      o <- look E a ;;
      '(h1, o1) <- obj_copy h o ords ;;
      Ok (h1, E ++ [Some o1], [])
  | OAssign a b ords =>
      o <- look E a ;;
      other <- look E b ;;
      if a =? b then Ok (h, E, [])                   (* coo.hpp:323 *)
      else
        '(h1, o1) <- obj_assign h o other ords ;;
        Ok (h1, lset E a (Some o1), [])
  | OFree a =>
      o <- look E a ;;
      '(h1, o1) <- obj_free h o ;;
      Ok (h1, lset E a (Some o1), [])
  | OTranspose a =>
      o <- look E a ;;
      Ok (h, lset E a (Some (obj_transpose o)), [])
  | OHdr a hdr =>                                    (* coo.hpp:272-278 *)
      o <- look E a ;;
      Ok (h, lset E a (Some (mkObj (ocls o) hdr (om o) (oarr o))), [])
  | OSet a k i v =>
      o <- look E a ;;
      h1 <- hset h (nth k (oarr o) None) i v ;;
      Ok (h1, E, [])
  | OGet a k i =>
      o <- look E a ;;
      v <- hget h (nth k (oarr o) None) i ;;
      Ok (h, E, [v])
  | OInfo a =>
      o <- look E a ;;
      Ok (h, E, map Z.of_nat (om o :: ohdr o))
  | ODrop a =>
      o <- look E a ;;
      h1 <- drop_all h (kinds (ocls o)) (oarr o) ;;
      Ok (h1, lset E a None, [])
  end.

Fixpoint run_ops (h : heap) (E : env) (xs : list op) : res (heap * env * list Z) :=
  match xs with
  | [] => Ok (h, E, [])
  | x :: xs' =>
      '(h1, E1, out) <- step h E x ;;
      '(h2, E2, outs) <- run_ops h1 E1 xs' ;;
      Ok (h2, E2, out ++ outs)
  end.

(** ** CSR, Graph, CSC

    These declare no copy constructor and no copy assignment (csr.hpp:127-274,
    graph.hpp:98-147), so copying copies the members one by one: a raw pointer
    is copied, a shared pointer gets one more owner, a vector is copied
    element by element.  [free()] (csr.hpp:246-250) is not guarded and leaves
    the members and the counts as they are. *)
Record csrobj := mkCsrObj {
  ck : kind;                (* LabelStorage, OrdinalStorage, WeightStorage *)
  cend : handle;            (* endpoints_ *)
  coff : handle;            (* offsets_ *)
  cwgt : option handle }.   (* weights_, if there are weights *)

(** The copy of one member. *)
Definition copy_mem (k : kind) (h : heap) (a : handle) : res (heap * handle) :=
  match k with
  | Ptr => Ok (h, a)
  | Sptr =>
      match a with
      | None => Ok (h, None)
      | Some p =>
          match hblock h p with
          | Freed => UB
          | Live rc cs => Ok (lset h p (Live (S rc) cs), Some p)
          end
      end
  | Vec =>
      match a with
      | None => Ok (h, None)
      | Some p =>
          match hblock h p with
          | Freed => UB
          | Live rc cs => Ok (h ++ [Live 1 cs], Some (length h))
          end
      end
  end.

(** The implicit copy constructor of CSR (csr.hpp:127-274 declares none). *)
Definition csr_copy (h : heap) (c : csrobj) : res (heap * csrobj) :=
  '(h1, e) <- copy_mem (ck c) h (cend c) ;;
  '(h2, o) <- copy_mem (ck c) h1 (coff c) ;;
  match cwgt c with
  | None => Ok (h2, mkCsrObj (ck c) e o None)
  | Some w =>
      '(h3, w') <- copy_mem (ck c) h2 w ;;
      Ok (h3, mkCsrObj (ck c) e o (Some w'))
  end.

(** [free()]: csr.hpp:246-250. *)
Definition csr_free (h : heap) (c : csrobj) : res heap :=
  h1 <- free_mem (ck c) h (cend c) ;;
  h2 <- free_mem (ck c) h1 (coff c) ;;
  match cwgt c with
  | None => Ok h2
  | Some w => free_mem (ck c) h2 w
  end.

(** ** COO from CSR

    The storage side of [convert_csr_] (coo.impl.hpp:67-129), for a COO without
    flags.  What it computes is modelled in Csr.v; here the point is which
    block each access goes to.  [storage_offsets] and [storage_endpoints]
    (coo.impl.hpp:81-82) and [storage_weights] (coo.impl.hpp:88) are copies of
    the members of the CSR, and [storage_weights] goes out of scope before the
    loop. *)

(** One entry of a row: coo.impl.hpp:105-127. *)
Definition conv_entry (h : heap) (x y : handle) (w : option (handle * handle))
    (eptr : handle) (v j : nat) : res heap :=
  e <- hget h eptr j ;;
  h1 <- hset h x j (Z.of_nat v) ;;
  h2 <- hset h1 y j e ;;
  match w with
  | None => Ok h2
  | Some (wdst, wptr) =>
      z <- hget h2 wptr j ;;
      hset h2 wdst j z
  end.

(** [for (auto cur = start; cur < end; ++cur, ++coo_cur)]: coo.impl.hpp:105. *)
Fixpoint conv_row (h : heap) (x y : handle) (w : option (handle * handle))
    (eptr : handle) (v : nat) (js : list nat) : res heap :=
  match js with
  | [] => Ok h
  | j :: js' =>
      h1 <- conv_entry h x y w eptr v j ;;
      conv_row h1 x y w eptr v js'
  end.

(** The loop over the rows, in the order [ord]: coo.impl.hpp:92-104. *)
Fixpoint conv_rows (h : heap) (x y : handle) (w : option (handle * handle))
    (optr eptr : handle) (ord : list nat) : res heap :=
  match ord with
  | [] => Ok h
  | v :: ord' =>
      s <- hget h optr v ;;
      e <- hget h optr (v + 1) ;;
      h1 <- conv_row h x y w eptr v (seq (Z.to_nat s) (Z.to_nat e - Z.to_nat s)) ;;
      conv_rows h1 x y w optr eptr ord'
  end.

(** The whole conversion; [s] and [ws] are the storage of the COO, [m] is
    [csr.m()]. *)
Definition coo_from_csr (h : heap) (s ws : kind) (c : csrobj) (hdr : list nat) (m : nat)
    (ord : list nat) : res (heap * obj) :=
  let cls := CCoo s ws (match cwgt c with Some _ => true | None => false end) in
  (* allocate_() *)
  '(h1, az) <- alloc_all h (kinds cls) (sizes cls hdr m) (map (fun _ => None) (kinds cls)) ;;
  (* auto storage_offsets = csr.offsets(); auto storage_endpoints = csr.endpoints(); *)
  '(h2, so) <- copy_mem (ck c) h1 (coff c) ;;
  '(h3, se) <- copy_mem (ck c) h2 (cend c) ;;
  (* { auto storage_weights = csr.weights(); weights = ...; } *)
  '(h4, w) <- match cwgt c with
              | None => Ok (h3, None)
              | Some w0 =>
                  '(h3', sw) <- copy_mem (ck c) h3 w0 ;;
                  h3'' <- drop_mem (ck c) h3' sw ;;
                  Ok (h3'', Some (nth 2 az None, sw))
              end ;;
  h5 <- conv_rows h4 (nth 0 az None) (nth 1 az None) w so se ord ;;
  (* the end of the function *)
  h6 <- drop_mem (ck c) h5 se ;;
  h7 <- drop_mem (ck c) h6 so ;;
  Ok (h7, mkObj cls hdr m az).
