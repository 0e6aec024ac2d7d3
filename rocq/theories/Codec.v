(** * Codec: the bytes of typed values in memory

    PIGO's binary files are memory images: a value is stored with
    a typed store through the file position (include/pigo/impl/pigo.impl.hpp:173-178) and an array with
    [memcpy].  A codec says how a value of a type is laid out.  Integers are
    little-endian two's complement (the supported platforms); for weights of
    another type a codec is a parameter. *)

From Verif Require Import Base.

Record codec (V : Type) := mkCodec {
  cd_size : nat;                  (* sizeof(T) *)
  cd_enc : V -> list byte;
  cd_dec : list byte -> V
}.
Arguments mkCodec {V}.
Arguments cd_size {V}.
Arguments cd_enc {V}.
Arguments cd_dec {V}.

(** The [n] little-endian bytes of [z], and back. *)
Fixpoint le (n : nat) (z : Z) : list byte :=
  match n with
  | O => []
  | S n' => (z mod 256)%Z :: le n' (z / 256)%Z
  end.
Definition unle (bs : list byte) : Z := fold_right (fun b a => b + 256 * a)%Z 0%Z bs.

Definition isize (t : ity) : nat := Z.to_nat (ibits t / 8).
Definition cint (t : ity) : codec Z :=
  mkCodec (isize t) (le (isize t)) (fun bs => wrap t (unle bs)).

(** A codec is faithful on the values satisfying [P] when [cd_enc] produces
    [cd_size] bytes and [cd_dec] recovers the value. *)
Definition faithful {V : Type} (P : V -> Prop) (c : codec V) : Prop :=
  0 < cd_size c /\
  (forall v, length (cd_enc c v) = cd_size c) /\
  (forall v, P v -> cd_dec c (cd_enc c v) = v).

(** ** Integers are faithful on their range *)
Lemma le_length n : forall z, length (le n z) = n.
Proof. induction n as [|n IH]; intros z; cbn; [reflexivity|rewrite IH; reflexivity]. Qed.

Lemma unle_le n : forall z, unle (le n z) = (z mod 256 ^ Z.of_nat n)%Z.
Proof.
  induction n as [|n IH]; intros z; cbn [le].
  - cbn. rewrite Z.mod_1_r. reflexivity.
  - unfold unle in *. cbn [fold_right]. rewrite IH.
    rewrite Nat2Z.inj_succ, Z.pow_succ_r by lia.
    rewrite Z.rem_mul_r by lia. reflexivity.
Qed.

Lemma wrap_mod t z : is_ity t -> inrange t z = true -> wrap t (z mod 2 ^ ibits t) = z.
Proof.
  intros Ht Hz. unfold inrange in Hz. apply andb_prop in Hz as [H1 H2]. apply Z.leb_le in H1, H2.
  assert (HP : forall b, (0 < 2 ^ b)%Z \/ (b < 0)%Z).
  { intros b. destruct (Z_lt_dec b 0); [right; assumption|left; apply Z.pow_pos_nonneg; lia]. }
  unfold wrap, imin, imax in *. destruct (isigned t) eqn:Es.
  - assert (Eb : (2 ^ ibits t = 2 * 2 ^ (ibits t - 1))%Z).
    { rewrite <- Z.pow_succ_r; [f_equal; lia|].
      unfold is_ity in Ht. cbn [In] in Ht. intuition (subst; cbn; lia). }
    set (h := (2 ^ (ibits t - 1))%Z) in *. rewrite Eb in *.
    assert (Hh : (0 < h)%Z) by (destruct (HP (ibits t - 1)%Z) as [|Hn]; [assumption|]; unfold h in H1, H2; rewrite Z.pow_neg_r in H1, H2 by exact Hn; lia).
    assert (E : ((z mod (2 * h) + h) mod (2 * h) = (z + h) mod (2 * h))%Z).
    { rewrite Z.add_mod_idemp_l by lia. reflexivity. }
    rewrite E. rewrite Z.mod_small by lia. lia.
  - destruct (HP (ibits t)) as [|Hn]; [|rewrite Z.pow_neg_r in H2 by exact Hn; lia].
    rewrite Z.mod_mod by lia. apply Z.mod_small. lia.
Qed.

Lemma isize_pow t : is_ity t -> (256 ^ Z.of_nat (isize t) = 2 ^ ibits t)%Z.
Proof. intros Ht. unfold is_ity in Ht. cbn [In] in Ht. intuition (subst; reflexivity). Qed.

Lemma cint_faithful t : is_ity t -> faithful (fun z => inrange t z = true) (cint t).
Proof.
  intros Ht. split; [|split]; cbn [cd_size cd_enc cd_dec cint].
  - unfold is_ity in Ht. cbn [In] in Ht. intuition (subst; cbn; lia).
  - intros v. apply le_length.
  - intros v Hv. rewrite unle_le, isize_pow by exact Ht. apply wrap_mod; assumption.
Qed.
