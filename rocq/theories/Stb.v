(** * Stb: from a [double] to decimal digits

    Model of [stbsp__real_to_str], include/pigo/impl/stb.impl.hpp:326-645, and of
    the tables and macros it uses.  What the caller [stbsp_to_chars] does with
    the digits is in [Ascii.v].  Arithmetic on [double] is IEEE 754 binary64 with
    rounding to nearest even ([SpecFloat], as in [Fp64.v]). *)

From Coq Require Import ZArith SpecFloat.
From Verif Require Import Base Reader Coo Ascii Fp64.
Open Scope Z_scope.

Definition dsub : spec_float -> spec_float -> spec_float := SFsub 53 1024.

(** A literal [n * 10^x]: the nearest double (to even in a tie). *)
Definition dlit (s : bool) (n : positive) (x : Z) : spec_float :=
  if 0 <=? x
  then match Zpos n * 10 ^ x with Zpos p => binary_round 53 1024 s p 0 | _ => S754_nan end
  else let '(mz, ez, lz) := SFdiv_core_binary 53 1024 (Zpos n) 0 (10 ^ (- x)) 0 in
       binary_round_aux 53 1024 s mz ez lz.

(** [stbsp__bot], stb.impl.hpp:333-336. *)
Definition bot : list spec_float := map (fun i => dlit false 1 (Z.of_nat i)) (seq 0 23).
(** [stbsp__negbot], stb.impl.hpp:337-340. *)
Definition negbot : list spec_float := map (fun i => dlit false 1 (- Z.of_nat (S i))) (seq 0 22).
(** [stbsp__negboterr], stb.impl.hpp:341-346. *)
Definition negboterr : list spec_float :=
  [ dlit true 5551115123125783 (-33);   dlit true 20816681711721684 (-35);
    dlit true 20816681711721686 (-36);  dlit true 47921736023859299 (-37);
    dlit true 81803053914031305 (-38);  dlit false 45251888174113741 (-39);
    dlit false 45251888174113739 (-40); dlit true 20922560830128471 (-41);
    dlit true 62281591457779853 (-42);  dlit true 36432197315497743 (-43);
    dlit false 60503030718060191 (-44); dlit false 20113352370744385 (-45);
    dlit true 30373745563400371 (-46);  dlit false 11806906454401013 (-48);
    dlit true 77705399876661076 (-48);  dlit false 20902213275965398 (-49);
    dlit true 71542424054621921 (-50);  dlit true 71542424054621926 (-51);
    dlit false 24754073164739869 (-52); dlit false 54846728545790429 (-53);
    dlit false 92462547772103625 (-54); dlit true 48596774326570872 (-55) ].
(** [stbsp__top], stb.impl.hpp:347-349: 1e23, 1e46, ..., 1e299. *)
Definition top : list spec_float := map (fun i => dlit false 1 (23 * Z.of_nat (S i))) (seq 0 13).
(** [stbsp__negtop], stb.impl.hpp:350-352. *)
Definition negtop : list spec_float := map (fun i => dlit false 1 (- (23 * Z.of_nat (S i)))) (seq 0 13).
(** [stbsp__toperr], stb.impl.hpp:353-367. *)
Definition toperr : list spec_float :=
  [ dlit false 8388608 0;
    dlit false 68601809640529717 12;
    dlit true 7253143638152921 37;
    dlit true 43377296974619174 59;
    dlit true 15559416129466825 82;
    dlit true 32841562489204913 105;
    dlit true 37745893248228135 128;
    dlit true 17356668416969134 151;
    dlit true 38893577551088374 174;
    dlit true 99566444326005119 197;
    dlit false 63641293062232429 220;
    dlit true 52069140800249813 243;
    dlit true 52504760255204387 266 ].
(** [stbsp__negtoperr], stb.impl.hpp:368-373. *)
Definition negtoperr : list spec_float :=
  [ dlit false 39565301985100693 (-56);  dlit true 2299904345391321 (-78);
    dlit false 36506201437945798 (-102); dlit false 11875228833981544 (-125);
    dlit true 50644902316928607 (-148);  dlit true 67156837247865426 (-171);
    dlit true 2812077463003139 (-193);   dlit true 57778912386589953 (-217);
    dlit false 74997100559334532 (-240); dlit true 46439668915134491 (-263);
    dlit true 63691100762962136 (-286);  dlit true 9436808465446358 (-308);
    dlit false 80970921678014997 (-333) ].
(** [stbsp__powten], stb.impl.hpp:375-396. *)
Definition powten : list Z := map (fun i => 10 ^ Z.of_nat i) (seq 0 20).
(** [stbsp__tento19th], stb.impl.hpp:397 (it is 10^18). *)
Definition tento19th : Z := 10 ^ 18.

(** The bits of a double with the lowest 27 cleared, stb.impl.hpp:404-406. *)
Definition mask27 (x : spec_float) : spec_float :=
  match x with
  | S754_finite s m e =>
      match Zpos m - Zpos m mod 2 ^ 27 with
      | Zpos m' => S754_finite s m' e
      | _ => S754_zero s
      end
  | _ => x
  end.

(** [stbsp__ddmulthi], stb.impl.hpp:399-413: the product in two parts. *)
Definition ddmulthi (xh yh : spec_float) : spec_float * spec_float :=
  let oh := dmul xh yh in
  let ahi := mask27 xh in
  let alo := dsub xh ahi in
  let bhi := mask27 yh in
  let blo := dsub yh bhi in
  (oh, dadd (dadd (dadd (dsub (dmul ahi bhi) oh) (dmul ahi blo)) (dmul alo bhi)) (dmul alo blo)).

(** A double converted to [int64]: truncation; undefined if out of range or not
    a number. *)
Definition dtrunc (x : spec_float) : res Z :=
  match x with
  | S754_zero _ => Ok 0
  | S754_finite s m e =>
      let a := if 0 <=? e then Zpos m * 2 ^ e else Zpos m / 2 ^ (- e) in
      let z := if s then - a else a in
      if inrange i64 z then Ok z else UB
  | _ => UB
  end.

(** [stbsp__ddtoS64], stb.impl.hpp:415-424. *)
Definition ddtoS64 (xh xl : spec_float) : res Z :=
  ob <- dtrunc xh ;;
  let vh := dbl ob in
  let ahi := dsub xh vh in
  let t := dsub ahi xh in
  let alo := dsub (dsub xh (dsub ahi t)) (dadd vh t) in
  ob2 <- dtrunc (dadd (dadd ahi alo) xl) ;;
  arith i64 (ob + ob2).

(** [stbsp__ddrenorm], stb.impl.hpp:426-432. *)
Definition ddrenorm (oh ol : spec_float) : spec_float * spec_float :=
  let s := dadd oh ol in (s, dsub ol (dsub s oh)).

(** [stbsp__ddmultlo], stb.impl.hpp:434. *)
Definition ddmultlo (ol xh xl yh yl : spec_float) : spec_float := dadd ol (dadd (dmul xh yl) (dmul xl yh)).
(** [stbsp__ddmultlos], stb.impl.hpp:436. *)
Definition ddmultlos (ol xh yl : spec_float) : spec_float := dadd ol (dmul xh yl).

(** An element of a static table. *)
Definition tab {A : Type} (l : list A) (i : Z) : res A :=
  if i <? 0 then UB else match nth_error l (Z.to_nat i) with Some x => Ok x | None => UB end.

(** [stbsp__raise_to_power10], stb.impl.hpp:438-499. *)
Definition raise_to_power10 (d : spec_float) (power : Z) : res (spec_float * spec_float) :=
  pp <- (if (0 <=? power) && (power <=? 22) then
           b <- tab bot power ;; Ok (ddmulthi d b)
         else
           let e := Z.abs power in
           let et0 := Z.shiftr (e * 713) 14 in
           let et := if 13 <? et0 then 13 else et0 in
           let eb := e - et * 23 in
           if power <? 0 then
             '(ph, pl) <- (if eb =? 0 then Ok (d, S754_zero false)
                           else b <- tab negbot (eb - 1) ;; be <- tab negboterr (eb - 1) ;;
                                let '(ph, pl) := ddmulthi d b in Ok (ph, ddmultlos pl d be)) ;;
             (if et =? 0 then Ok (ph, pl)
              else let '(ph, pl) := ddrenorm ph pl in
                   t <- tab negtop (et - 1) ;; te <- tab negtoperr (et - 1) ;;
                   let '(p2h, p2l) := ddmulthi ph t in Ok (p2h, ddmultlo p2l ph pl t te))
           else
             '(ph, pl) <- (if eb =? 0 then Ok (d, S754_zero false)
                           else let eb' := if 22 <? eb then 22 else eb in
                                let e' := eb - eb' in
                                b <- tab bot eb' ;;
                                let '(ph, pl) := ddmulthi d b in
                                if e' =? 0 then Ok (ph, pl)
                                else let '(ph, pl) := ddrenorm ph pl in
                                     b' <- tab bot e' ;;
                                     let '(p2h, p2l) := ddmulthi ph b' in
                                     Ok (p2h, ddmultlos p2l b' pl)) ;;
             (if et =? 0 then Ok (ph, pl)
              else let '(ph, pl) := ddrenorm ph pl in
                   t <- tab top (et - 1) ;; te <- tab toperr (et - 1) ;;
                   let '(p2h, p2l) := ddmulthi ph t in Ok (p2h, ddmultlo p2l ph pl t te))) ;;
  let '(ph, pl) := pp in Ok (ddrenorm ph pl).

(** The biased exponent of a finite double that is not zero, with the
    correction for denormals, stb.impl.hpp:512-514, 526-543.  A double is normal
    if its mantissa has 53 bits; otherwise the field is 0 and the loop searches
    the highest bit set, from bit 51 down. *)
Fixpoint denormal_expo (fuel : nat) (m v expo : Z) : res Z :=
  match fuel with
  | O => Stuck
  | S fuel' => if Z.land m v =? 0 then denormal_expo fuel' m (Z.shiftr v 1) (expo - 1) else Ok expo
  end.
Definition expo_of (m e : Z) : res Z :=
  if 2 ^ 52 <=? m then Ok (e + 1075) else denormal_expo 52 m (2 ^ 51) 0.

(** The estimate of the decimal exponent, stb.impl.hpp:551-552 ([/] rounds
    toward zero). *)
Definition tens_est (expo : Z) : Z :=
  let t := expo - 1023 in
  if t <? 0 then Z.quot (t * 617) 2048 else Z.quot (t * 1233) 4096 + 1.

(** [while ((uint64)bits >= stbsp__powten[dg])], stb.impl.hpp:568-575; [None]
    is [goto noround]. *)
Fixpoint count_digits (fuel : nat) (ub dg : Z) : res (option Z) :=
  match fuel with
  | O => Stuck
  | S fuel' =>
      p <- tab powten dg ;;
      if p <=? ub then (if dg + 1 =? 20 then Ok None else count_digits fuel' ub (dg + 1)) else Ok (Some dg)
  end.

(** The rounding, stb.impl.hpp:565-589, with [frac_digits = 6]: [bits] and
    [tens] after it.  [fd] is unsigned 32-bit; [bits + r/2] and [bits / r] are
    computed as unsigned 64-bit and stored in a signed variable. *)
Definition round_bits (bits tens : Z) : res (Z * Z) :=
  let fd := wrap u32 (tens + 6) in
  if fd <? 24 then
    let ub := wrap u64 bits in
    p9 <- tab powten 9 ;;
    o <- count_digits 20 ub (if p9 <=? ub then 10 else 1) ;;
    match o with
    | None => Ok (bits, tens)
    | Some dg =>
        if fd <? dg then
          let e := dg - fd in
          if 24 <=? e then Ok (bits, tens)
          else r <- tab powten e ;;
               let b := wrap u64 (ub + r / 2) in
               pd <- tab powten dg ;;
               Ok (wrap i64 (b / r), if pd <=? b then tens + 1 else tens)
        else Ok (bits, tens)
    end
  else Ok (bits, tens).

(** "kill long trailing runs of zeros", stb.impl.hpp:592-606. *)
Fixpoint kill64 (fuel : nat) (bits : Z) : res (Z * bool) :=
  match fuel with
  | O => Stuck
  | S fuel' =>
      if bits <=? 4294967295 then Ok (bits, true)
      else if Z.rem bits 1000 =? 0 then kill64 fuel' (Z.quot bits 1000) else Ok (bits, false)
  end.
Fixpoint kill32 (fuel : nat) (n : Z) : res Z :=
  match fuel with
  | O => Stuck
  | S fuel' => if n mod 1000 =? 0 then kill32 fuel' (n / 1000) else Ok n
  end.
Definition kill_zeros (bits : Z) : res Z :=
  if bits =? 0 then Ok 0
  else '(b, small) <- kill64 7 bits ;;
       if small then kill32 5 (wrap u32 b) else Ok b.

(** [while (n) { out -= 2; ...; n /= 100; e += 2; }], stb.impl.hpp:622-627: the
    two digits of [n % 100] in front of the text so far.  The pair of digits
    comes from [stbsp__digitpair], stb.impl.hpp:44-53. *)
Fixpoint put_pairs (fuel : nat) (n : Z) (out : list byte) : res (list byte) :=
  match fuel with
  | O => Stuck
  | S fuel' =>
      if n =? 0 then Ok out
      else put_pairs fuel' (n / 100) (ch_0 + (n mod 100) / 10 :: ch_0 + (n mod 100) mod 10 :: out)
  end.

(** The loop of stb.impl.hpp:611-639, in chunks of eight digits.  [out] is the
    text from the address [out] on; the chunk is padded with zeros to eight
    digits if more follow. *)
Fixpoint digits_loop (fuel : nat) (bits : Z) (out : list byte) : res (list byte) :=
  match fuel with
  | O => Stuck
  | S fuel' =>
      let big := 100000000 <=? bits in
      let n := if big then Z.rem bits 100000000 else wrap u32 bits in
      let bits' := if big then Z.quot bits 100000000 else 0 in
      o <- put_pairs 6 n out ;;
      if bits' =? 0 then
        Ok (match o with c :: o' => if c =? ch_0 then o' else o | [] => [] end)
      else digits_loop fuel' bits' (repeat ch_0 (8 - (length o - length out)) ++ o)
  end.

(** [stbsp__real_to_str], stb.impl.hpp:505-645, with [frac_digits = 6].
    Simplification: a NaN has no sign. *)
Definition real_to_str (value : spec_float) : res realstr :=
  match value with
  | S754_nan => Ok (RSpecial false [78; 97; 78])
  | S754_infinity s => Ok (RSpecial s [73; 110; 102])
  | S754_zero s => Ok (RFinite s [ch_0] 1)
  | S754_finite s m e =>
      let d := S754_finite false m e in
      expo <- expo_of (Zpos m) e ;;
      let tens := tens_est expo in
      '(ph, pl) <- raise_to_power10 d (18 - tens) ;;
      bits <- ddtoS64 ph pl ;;
      let tens := if tento19th <=? wrap u64 bits then tens + 1 else tens in
      '(bits, tens) <- round_bits bits tens ;;
      bits <- kill_zeros bits ;;
      sn <- digits_loop 4 bits [] ;;
      Ok (RFinite s sn tens)
  end.

(** [write_size] and [write_ascii] of a [double], and of a [float], which is
    converted, pigo.impl.hpp:254-264, 295-304. *)
Definition fmt_double (base lb nb : Z) : fmt spec_float :=
  let F := fmt_fp (fun r : realstr => r) base lb nb in
  mkFmt spec_float (fun v => r <- real_to_str v ;; f_size F r) (fun fp v => r <- real_to_str v ;; f_put F fp r).
Definition fmt_float (base lb nb : Z) : fmt spec_float :=
  mkFmt spec_float (fun v => f_size (fmt_double base lb nb) (to64 v)) (fun fp v => f_put (fmt_double base lb nb) fp (to64 v)).
