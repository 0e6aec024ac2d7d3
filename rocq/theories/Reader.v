(** * Reader: the class [FileReader]

    Model of include/pigo.hpp:51-249 and include/pigo/impl/pigo.impl.hpp:306-625.
    A [FileReader] is a pair of pointers [d] (current) and [end]; here they are
    offsets [d], [e] into a mapped file [m], and a member function that moves
    the reader returns the new [d].

    Loads guarded by [d < end] in the code are guarded here, and the loads the
    code performs without that guard are performed here without it, so that a
    load at or beyond the end of the mapping shows up as [UB].

    Every [while] is a recursion on explicit fuel; for the loops whose body
    advances by exactly one the fuel [e - d] is exactly the number of
    iterations the guard [d < end] allows. *)

From Verif Require Import Base.

(** [while (d < end && p( *d)) ++d;]  the shape of
    include/pigo/impl/pigo.impl.hpp:316, 382, 387, 393, 502. *)
Fixpoint scan_ (m : mem) (p : byte -> bool) (n : nat) (d : nat) : res nat :=
  match n with
  | O => Ok d
  | S n' => c <- load m d ;; if p c then scan_ m p n' (S d) else Ok d
  end.
Definition scan (m : mem) (p : byte -> bool) (e d : nat) : res nat := scan_ m p (e - d) d.

(** The inner loop of [skip_comments],
    [while (d < end && ( *d++ != '\n')) { }], pigo.impl.hpp:309. *)
Fixpoint skip_line_ (m : mem) (n : nat) (d : nat) : res nat :=
  match n with
  | O => Ok d
  | S n' => c <- load m d ;; if is_nl c then Ok (S d) else skip_line_ m n' (S d)
  end.

(** [FileReader::skip_comments], pigo.impl.hpp:307-310. *)
Fixpoint skip_comments_ (m : mem) (e : nat) (fuel : nat) (d : nat) : res nat :=
  match fuel with
  | O => Stuck
  | S fuel' =>
      if d <? e then
        c <- load m d ;;
        if is_cmt c then
          d' <- skip_line_ m (e - d) d ;;
          skip_comments_ m e fuel' d'
        else Ok d
      else Ok d
  end.
Definition skip_comments (m : mem) (e d : nat) : res nat := skip_comments_ m e (S (e - d)) d.

(** The accumulation loop of [read_int], pigo.impl.hpp:319-322:
    [res = res*10 + ( *d-'0')] in the integer type [t]. *)
Fixpoint read_digits_ (m : mem) (t : ity) (n : nat) (d : nat) (acc : Z) : res (Z * nat) :=
  match n with
  | O => Ok (acc, d)
  | S n' =>
      c <- load m d ;;
      if is_digit c then
        acc' <- arith t (acc * 10 + (c - ch_0))%Z ;;
        read_digits_ m t n' (S d) acc'
      else Ok (acc, d)
  end.

(** [FileReader::read_int<T>], pigo.impl.hpp:312-324. *)
Definition read_int (m : mem) (t : ity) (e d : nat) : res (Z * nat) :=
  d1 <- scan m (fun c => negb (is_digit c)) e d ;;
  read_digits_ m t (e - d1) d1 0%Z.

(** [FileReader::move_to_non_int], pigo.impl.hpp:380-383. *)
Definition move_to_non_int (m : mem) (e d : nat) : res nat := scan m is_digit e d.

(** [FileReader::move_to_non_fp], pigo.impl.hpp:385-389. *)
Definition move_to_non_fp (m : mem) (e d : nat) : res nat := scan m is_fp e d.

(** [FileReader::move_to_fp], pigo.impl.hpp:391-395. *)
Definition move_to_fp (m : mem) (e d : nat) : res nat := scan m (fun c => negb (is_fp c)) e d.

(** [FileReader::move_to_eol], pigo.impl.hpp:500-503. *)
Definition move_to_eol (m : mem) (e d : nat) : res nat := scan m (fun c => negb (is_nl c)) e d.

(** [if ( *d == '%' || *d == '#') skip_comments();]  the load is not guarded by
    [d < end]; pigo.impl.hpp:400, 403, 422, 425. *)
Definition skip_comments_here (m : mem) (e d : nat) : res nat :=
  c <- load m d ;; if is_cmt c then skip_comments m e d else Ok d.

(** The loop of [move_to_first_int], pigo.impl.hpp:401-404, with the stopping
    test as a parameter (it is shared with [move_to_next_signed_int],
    pigo.impl.hpp:423-426). *)
Fixpoint seek_ (m : mem) (stop : byte -> bool) (e : nat) (fuel : nat) (d : nat) : res nat :=
  match fuel with
  | O => Stuck
  | S fuel' =>
      if d <? e then
        c <- load m d ;;
        if stop c then Ok d
        else d' <- skip_comments_here m e (S d) ;; seek_ m stop e fuel' d'
      else Ok d
  end.

(** [FileReader::move_to_first_int], pigo.impl.hpp:397-405. *)
Definition move_to_first_int (m : mem) (e d : nat) : res nat :=
  d1 <- skip_comments_here m e d ;;
  seek_ m is_digit e (S (e - d1)) d1.

(** [FileReader::move_to_next_int], pigo.impl.hpp:407-414. *)
Definition move_to_next_int (m : mem) (e d : nat) : res nat :=
  d1 <- move_to_non_int m e d ;; move_to_first_int m e d1.

(** [FileReader::move_to_next_signed_int], pigo.impl.hpp:416-427.  The first
    test, on the sign, is not guarded by [d < end]. *)
Definition is_signed_start (c : byte) : bool :=
  (is_digit c || (c =? ch_plus) || (c =? ch_minus))%Z.
Definition move_to_next_signed_int (m : mem) (e d : nat) : res nat :=
  c <- load m d ;;
  let d0 := if ((c =? ch_plus) || (c =? ch_minus))%Z then S d else d in
  d1 <- move_to_non_int m e d0 ;;
  d2 <- skip_comments_here m e d1 ;;
  seek_ m is_signed_start e (S (e - d2)) d2.

(** [FileReader::read_sign<T>], include/pigo.hpp:94-98: unguarded load. *)
Definition read_sign (m : mem) (d : nat) : res Z :=
  c <- load m d ;; Ok (if (c =? ch_minus)%Z then (-1)%Z else 1%Z).

(** [FileReader::operator+], include/pigo.hpp:169-175: advance, clamped to end. *)
Definition advance (e d s : nat) : nat := Nat.min (d + s) e.

(** [FileReader::smaller_end], include/pigo.hpp:190-192: the new end. *)
Definition smaller_end (e re_d : nat) : nat := if re_d <? e then re_d else e.

(** [FileReader::at_str], pigo.impl.hpp:505-511.  [std::string d_str{d, d+s.size()}]
    copies bytes that are all below [end]. *)
Fixpoint str_eq (a b : list byte) : bool :=
  match a, b with
  | [], [] => true
  | x :: a', y :: b' => (x =? y)%Z && str_eq a' b'
  | _, _ => false
  end.
Fixpoint load_n (m : mem) (n d : nat) : res (list byte) :=
  match n with
  | O => Ok []
  | S n' => c <- load m d ;; r <- load_n m n' (S d) ;; Ok (c :: r)
  end.
Definition at_str (m : mem) (e d : nat) (s : list byte) : res bool :=
  if e <=? d + length s then Ok false
  else r <- load_n m (length s) d ;; Ok (str_eq s r).

(** [FileReader::at_end_of_line], pigo.impl.hpp:369-378. *)
Definition at_end_of_line (m : mem) (e d : nat) : res bool :=
  td <- scan m (fun c => negb (is_nl c) && ((c =? ch_sp) || (c =? ch_cr))%Z) e d ;;
  if td <? e then c <- load m td ;; Ok (is_nl c) else Ok true.

(** [FileReader::peek], include/pigo.hpp:217-220. *)
Definition peek (m : mem) (e d : nat) : res byte :=
  if d =? e then Ok 0%Z else load m d.

(** [FileReader::at_nl_or_eol], include/pigo.hpp:227-230. *)
Definition at_nl_or_eol (m : mem) (e d : nat) : res bool :=
  if d =? e then Ok true
  else c <- load m d ;; Ok (is_nl c || is_cmt c).

(** [FileReader::at_zero], include/pigo.hpp:236-241. *)
Definition at_zero (m : mem) (e d : nat) : res bool :=
  if e + 1 <=? d then Ok false
  else c <- load m d ;;
       if negb (c =? ch_0)%Z then Ok false
       else c2 <- load m (S d) ;; Ok (negb (is_digit c2)).

(** [FileReader::move_to(c)], include/pigo.hpp:163-166. *)
Definition move_to (m : mem) (ch : byte) (e d : nat) : res nat :=
  d1 <- (if d <? e then c <- load m d ;; Ok (if (c =? ch)%Z then S d else d) else Ok d) ;;
  scan m (fun c => negb (c =? ch)%Z) e d1.

(** [FileReader::move_to_next_int_or_nl], pigo.impl.hpp:474-498.  The loads at
    485 and 492 are not guarded; [--d] after [skip_comments] steps back onto
    the newline that ended the comment. *)
Fixpoint int_or_nl_loop (m : mem) (e : nat) (fuel : nat) (d : nat) : res nat :=
  match fuel with
  | O => Stuck
  | S fuel' =>
      if d <? e then
        c <- load m d ;;
        if is_digit c || is_nl c then Ok d
        else
          c2 <- load m (S d) ;;
          if is_cmt c2 then d' <- skip_comments m e (S d) ;; Ok (d' - 1)
          else int_or_nl_loop m e fuel' (S d)
      else Ok d
  end.
Definition move_to_next_int_or_nl (m : mem) (e d : nat) : res nat :=
  at_int <- (if d <? e then c <- load m d ;; Ok (is_digit c) else Ok false) ;;
  d1 <- move_to_non_int m e d ;;
  nl <- (if d1 <? e then c <- load m d1 ;; Ok (is_nl c) else Ok false) ;;
  if nl && at_int then Ok d1
  else
    let d2 := if nl then S d1 else d1 in
    c <- load m d2 ;;
    if is_cmt c then d' <- skip_comments m e d2 ;; Ok (d' - 1)
    else int_or_nl_loop m e (S (e - d2)) d2.

(** [FileReader::count_spaces_to_eol], pigo.impl.hpp:429-472.  The loads at
    439, 447, 448, 457, 461 and 465 are not guarded; the loop at 457 runs on
    [*d == ' '] alone. *)
Fixpoint skip_spaces_ (m : mem) (fuel : nat) (d : nat) : res nat :=
  match fuel with
  | O => Stuck
  | S fuel' => c <- load m d ;; if (c =? ch_sp)%Z then skip_spaces_ m fuel' (S d) else Ok d
  end.
Fixpoint count_spaces_ (m : mem) (e : nat) (fuel : nat) (d : nat) (ct : nat) : res (nat * nat) :=
  match fuel with
  | O => Stuck
  | S fuel' =>
      if d <? e then
        c0 <- load m d ;;
        if is_nl c0 then Ok (ct, d)
        else
          d1 <- scan m (fun c => negb (is_nl c) && negb (is_cmt c) && negb (is_digit c)) e d ;;
          c1 <- load m d1 ;;
          if negb (is_digit c1) then d' <- move_to_eol m e d1 ;; Ok (ct, d')
          else
            d2 <- scan m (fun c => is_digit c || (c =? ch_dot)%Z) e d1 ;;
            c2 <- load m d2 ;;
            if is_nl c2 then Ok (ct, d2)
            else if is_cmt c2 then d' <- move_to_eol m e d2 ;; Ok (ct, d')
            else
              d3 <- skip_spaces_ m (S (map_len m - d2)) d2 ;;
              c3 <- load m d3 ;;
              if is_nl c3 then Ok (ct, d3)
              else if is_cmt c3 then d' <- move_to_eol m e d3 ;; Ok (ct, d')
              else count_spaces_ m e fuel' d3 (S ct)
      else Ok (ct, d)
  end.
Definition count_spaces_to_eol (m : mem) (e d : nat) : res (nat * nat) :=
  count_spaces_ m e (S (e - d)) d 0.
