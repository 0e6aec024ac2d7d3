(** * P_Own: C32, ownership: copies and frees; C51, a CSR with vector weights *)

From Coq Require Import Permutation.
From Verif Require Import Base Own SpecOwn OwnLemmas OwnMain OwnConv.

(** ** C32: COO and Tensor behave as values *)

(** Any program that makes sense on plain values runs on the library without
    any undefined behaviour (no block is freed twice, none is used after it was
    freed, no element without a value is read) and prints exactly what the
    values say.  For every storage, with and without weights, for every mix of
    COO and Tensor variables and every order of the copy loops. *)
Theorem C32_value_semantics : forall xs A outs,
  does_all [] xs A outs ->
  exists h E, run_ops [] [] xs = Ok (h, E, outs).
Proof.
  intros xs A outs H.
  destruct (run_ok [] [] [] xs A outs) as (h & E & X & _); eauto.
  constructor.
  - intros a. destruct a; exact I.
  - intros a b o o' p _ Ha. destruct a; discriminate.
Qed.
Print Assumptions C32_value_semantics.

Lemma does_spares A x A1 out a v : does A x A1 out -> spares a x -> var A a v -> var A1 a v.
Proof.
  intros HD HS HV. unfold var in *.
  assert (P : forall B (l : list B) y z, nth_error l a = Some y -> nth_error (l ++ [z]) a = Some y).
  { intros B l y z Hl. rewrite nth_error_app1; auto. apply nth_error_Some. congruence. }
  destruct HD; cbn [spares] in HS; auto; try (rewrite lset_nth_error_ne; auto).
Qed.

Lemma does_all_spares A xs A1 outs a v : does_all A xs A1 outs -> Forall (spares a) xs ->
  var A a v -> var A1 a v.
Proof.
  induction 1 as [|A x A1 out xs A2 outs HD _ IH]; intros HS HV; auto.
  inversion HS; subst. apply IH; auto. eapply does_spares; eauto.
Qed.

Lemma does_all_app A xs A1 outs ys A2 outs' :
  does_all A xs A1 outs -> does_all A1 ys A2 outs' -> does_all A (xs ++ ys) A2 (outs ++ outs').
Proof.
  induction 1; intros; cbn; auto. rewrite <- app_assoc. econstructor; eauto.
Qed.

(** Whatever is done to other variables (among them copies of [a], which may be
    written, transposed, freed, reassigned or go out of scope), reading [a]
    gives what it held before. *)
Theorem C32_copies_independent : forall xs A outs ys A1 outs' a v k i arr z,
  does_all [] xs A outs -> var A a v ->
  nth_error (varr v) k = Some arr -> nth_error arr i = Some (Some z) ->
  does_all A ys A1 outs' -> Forall (spares a) ys ->
  exists h E, run_ops [] [] (xs ++ ys ++ [OGet a k i]) = Ok (h, E, outs ++ outs' ++ [z]).
Proof.
  intros. apply C32_value_semantics with (A := A1).
  eapply does_all_app; eauto. eapply does_all_app; eauto.
  change [z] with ([z] ++ []). econstructor; [|constructor].
  econstructor; eauto. eapply does_all_spares; eauto.
Qed.
Print Assumptions C32_copies_independent.

Lemma run_ops_app xs ys : forall h E,
  run_ops h E (xs ++ ys) =
  ('(h1, E1, out) <- run_ops h E xs ;; '(h2, E2, outs) <- run_ops h1 E1 ys ;; Ok (h2, E2, out ++ outs)).
Proof.
  induction xs as [|x xs IH]; intros h E; cbn [run_ops app bind].
  - destruct (run_ops h E ys) as [[[h1 E1] o]| | |]; reflexivity.
  - destruct (step h E x) as [[[h1 E1] o]| | |]; cbn [bind]; auto.
    rewrite IH. destruct (run_ops h1 E1 xs) as [[[h2 E2] o2]| | |]; cbn [bind]; auto.
    destruct (run_ops h2 E2 ys) as [[[h3 E3] o3]| | |]; cbn [bind]; auto.
    rewrite app_assoc. reflexivity.
Qed.

(** The second of two calls of [free()] changes nothing. *)
Theorem C32_free_twice : forall xs A outs a v,
  does_all [] xs A outs -> var A a v ->
  exists h E, run_ops [] [] (xs ++ [OFree a]) = Ok (h, E, outs) /\
              run_ops [] [] (xs ++ [OFree a; OFree a]) = Ok (h, E, outs).
Proof.
  intros xs A outs a v HD HV.
  assert (I0 : Inv [] [] []).
  { constructor; [intros a0; destruct a0; exact I|]. intros a0 b o o' p _ Ha. destruct a0; discriminate. }
  destruct (run_ok _ _ _ _ _ _ I0 HD) as (h & E & X & IN).
  assert (D1 : exists A', does A (OFree a) A' []).
  { destruct (Nat.eq_dec (vm v) 0); eexists; [eapply does_free_empty|eapply does_free]; eauto; lia. }
  destruct D1 as (A' & D1).
  destruct (step_ok _ _ _ _ _ _ IN D1) as (h1 & E1 & S1 & IN1 & _).
  exists h1, E1. rewrite !run_ops_app, X. cbn [bind run_ops]. rewrite S1. cbn [bind].
  rewrite app_nil_r. split; auto.
  cbn [step] in S1 |- *. destruct (look E a) as [o| | |] eqn:Lo; try discriminate. cbn [bind] in S1.
  destruct (obj_free h o) as [[h' o']| | |] eqn:F; try discriminate. cbn [bind] in S1.
  inversion S1; subst h1 E1.
  assert (La : a < length E).
  { unfold look in Lo. apply nth_error_Some. destruct (nth_error E a); congruence. }
  assert (L2 : look (lset E a (Some o')) a = Ok o').
  { unfold look. rewrite lset_nth_error_eq by auto. reflexivity. }
  rewrite L2. cbn [bind].
  assert (M : om o' = 0).
  { unfold obj_free in F. destruct (Nat.ltb_spec 0 (om o)).
    - destruct (free_all h (kinds (ocls o)) (oarr o)); cbn [bind] in F; inversion F; reflexivity.
    - inversion F; subst. lia. }
  unfold obj_free. rewrite M. cbn [Nat.ltb Nat.leb bind].
  rewrite lset_self; [rewrite app_nil_r; reflexivity|]. apply lset_nth_error_eq; auto.
Qed.
Print Assumptions C32_free_twice.

(** No storage is lost: if the client frees what holds raw pointers before it
    goes out of scope, then every live block that has elements is the array of
    a variable that is still in scope. *)
Theorem C32_no_leak : forall xs A outs,
  does_tidily [] xs A outs ->
  exists h E, run_ops [] [] xs = Ok (h, E, outs) /\
    forall p rc cs, nth_error h p = Some (Live rc cs) -> cs <> [] ->
      exists a o, nth_error E a = Some (Some o) /\ In (Some p) (oarr o).
Proof.
  intros xs A outs H.
  assert (G : forall h E A0, Inv h E A0 -> noleak h E -> does_tidily A0 xs A outs ->
            exists h1 E1, run_ops h E xs = Ok (h1, E1, outs) /\ Inv h1 E1 A /\ noleak h1 E1).
  { clear H. intros h E A0 HI NL H. revert h E HI NL.
    induction H as [|A0 x A1 out xs A2 outs HT HD _ IH]; intros h E HI NL.
    - exists h, E. auto.
    - destruct (step_ok _ _ _ _ _ _ HI HD) as (h1 & E1 & S1 & I1 & N1).
      destruct (IH h1 E1 I1) as (h2 & E2 & S2 & I2 & N2); auto.
      exists h2, E2. split; auto. cbn [run_ops]. rewrite S1. cbn [bind]. rewrite S2. reflexivity. }
  destruct (G [] [] []) as (h & E & X & _ & N); auto.
  { constructor; [intros a0; destruct a0; exact I|]. intros a0 b o o' p _ Ha. destruct a0; discriminate. }
  { intros p rc cs Hp. destruct p; discriminate. }
  exists h, E. split; auto. intros p rc cs Hp Hc.
  destruct (N p rc cs) as (a & o & Ea & Ho); auto.
  - unfold hblock. apply nth_error_nth; auto.
  - exists a, o. split; auto. eapply owned_ids; eauto.
Qed.
Print Assumptions C32_no_leak.

(** Storage without elements is lost: [free()] does nothing to an object
    without entries, so the (empty) blocks that a sized constructor or a copy
    got from [malloc] for it are never given back. *)
Theorem C32_empty_blocks_leak : forall ws wgt hdr, length hdr = 3 ->
  exists h E, run_ops [] [] [ONew (CCoo Ptr ws wgt) hdr 0; OFree 0; ODrop 0] = Ok (h, E, []) /\
    (forall a o, nth_error E a <> Some (Some o)) /\
    nth_error h 0 = Some (Live 1 []) /\ nth_error h 1 = Some (Live 1 []).
Proof.
  intros ws wgt hdr _. destruct wgt, ws; eexists _, _; (split; [reflexivity|]);
    (split; [intros [|[|a]] o; discriminate|]); split; reflexivity.
Qed.
Print Assumptions C32_empty_blocks_leak.

(** ** C32: CSR does not *)

(** A copy of a CSR on raw or shared pointers is the same storage: what is
    stored through the copy is read through the original. *)
Theorem C32_csr_copy_shares : forall h c h1 c1 i z h2,
  ck c = Ptr \/ ck c = Sptr ->
  csr_copy h c = Ok (h1, c1) ->
  (hset h1 (cend c1) i z = Ok h2 -> hget h2 (cend c) i = Ok z) /\
  (hset h1 (coff c1) i z = Ok h2 -> hget h2 (coff c) i = Ok z) /\
  (forall a1, cwgt c1 = Some a1 -> hset h1 a1 i z = Ok h2 ->
     exists a, cwgt c = Some a /\ hget h2 a i = Ok z).
Proof.
  intros h c h1 c1 i z h2 K C.
  assert (SH : forall hh a h' a', copy_mem (ck c) hh a = Ok (h', a') -> a' = a).
  { intros hh a h' a' X. destruct K as [K|K]; rewrite K in X; cbn [copy_mem] in X; [congruence|].
    destruct a as [p|]; [|congruence]. destruct (hblock hh p); congruence. }
  assert (SG : forall hh a h', hset hh a i z = Ok h' -> hget h' a i = Ok z).
  { intros hh a h' X. destruct (hset_res hh a i z) as [Y|(p & rc & cs & -> & Hp & Hi & Y)]; [congruence|].
    rewrite Y in X. inversion X; subst. cbn [hget].
    rewrite hblock_eq by (eapply hblock_lt; eauto). rewrite lset_nth_error_eq by auto. reflexivity. }
  unfold csr_copy in C.
  destruct (copy_mem (ck c) h (cend c)) as [[h3 e]| | |] eqn:E1; try discriminate. cbn [bind] in C.
  destruct (copy_mem (ck c) h3 (coff c)) as [[h4 o]| | |] eqn:E2; try discriminate. cbn [bind] in C.
  apply SH in E1, E2. subst e o.
  destruct (cwgt c) as [w|] eqn:W.
  - destruct (copy_mem (ck c) h4 w) as [[h5 w']| | |] eqn:E3; try discriminate. cbn [bind] in C.
    apply SH in E3. subst w'. inversion C; subst. cbn [cend coff cwgt].
    split; [eauto|]. split; [eauto|]. intros a1 X. inversion X; subst. eauto.
  - inversion C; subst. cbn [cend coff cwgt]. split; [eauto|]. split; [eauto|]. discriminate.
Qed.
Print Assumptions C32_csr_copy_shares.

(** With vectors the copy is independent: after any store through it, the
    original reads what it read before. *)
Theorem C32_csr_vector_copy_independent : forall h c h1 c1 a1 a i j z v h2,
  ck c = Vec -> csr_copy h c = Ok (h1, c1) ->
  In a1 (cend c1 :: coff c1 :: match cwgt c1 with Some w => [w] | None => [] end) ->
  In a (cend c :: coff c :: match cwgt c with Some w => [w] | None => [] end) ->
  hget h a j = Ok v ->
  hset h1 a1 i z = Ok h2 -> hget h2 a j = Ok v.
Proof.
  intros h c h1 c1 a1 a i j z v h2 K C Ia1 Ia HG HS.
  assert (CM : forall hh b h' b', copy_mem (ck c) hh b = Ok (h', b') ->
             (forall q, q < length hh -> hblock h' q = hblock hh q) /\ length hh <= length h' /\
             (forall p, b' = Some p -> length hh <= p)).
  { intros hh b h' b' X. rewrite K in X. cbn [copy_mem] in X.
    destruct b as [p|]; [|inversion X; subst; repeat split; auto; discriminate].
    destruct (hblock hh p) eqn:Hp; [|discriminate]. inversion X; subst.
    rewrite app_length. cbn [length]. repeat split; try lia.
    - intros q Hq. apply hblock_app_lt; auto.
    - intros p0 Y. inversion Y; subst. lia. }
  unfold csr_copy in C.
  destruct (copy_mem (ck c) h (cend c)) as [[h3 e]| | |] eqn:E1; try discriminate. cbn [bind] in C.
  destruct (copy_mem (ck c) h3 (coff c)) as [[h4 o]| | |] eqn:E2; try discriminate. cbn [bind] in C.
  apply CM in E1, E2. destruct E1 as (F1 & L1 & D1), E2 as (F2 & L2 & D2).
  destruct (hset_res h1 a1 i z) as [Y|(p & rc & cs & -> & Hp & Hi & Y)]; [congruence|].
  rewrite Y in HS. inversion HS; subst h2. clear HS Y.
  assert (G : (forall q, q < length h -> hblock h1 q = hblock h q) /\ length h <= p).
  { destruct (cwgt c) as [w|] eqn:W.
    - destruct (copy_mem (ck c) h4 w) as [[h5 w']| | |] eqn:E3; try discriminate. cbn [bind] in C.
      apply CM in E3. destruct E3 as (F3 & L3 & D3). inversion C; subst. cbn [cend coff cwgt] in Ia1.
      split; [intros; rewrite F3, F2, F1; auto; lia|].
      destruct Ia1 as [X|[X|[X|[]]]]; [specialize (D1 _ X)|specialize (D2 _ X)|specialize (D3 _ X)]; lia.
    - inversion C; subst. cbn [cend coff cwgt] in Ia1.
      split; [intros; rewrite F2, F1; auto; lia|].
      destruct Ia1 as [X|[X|[]]]; [specialize (D1 _ X)|specialize (D2 _ X)]; lia. }
  destruct G as [G1 G2]. destruct a as [q|]; [|exact HG]. cbn [hget] in HG |- *.
  destruct (hblock h q) as [rq cq|] eqn:Hq; [|discriminate].
  pose proof (hblock_lt _ _ _ _ Hq) as Lq.
  rewrite hblock_ne, G1, Hq by lia. exact HG.
Qed.
Print Assumptions C32_csr_vector_copy_independent.

(** [free()] of a CSR on raw pointers twice, or of it and of a copy of it, gives
    the same blocks back twice; and [free()] of a default-constructed one
    (csr.hpp:129) gives back a pointer that was never set. *)
Theorem C32_csr_double_free : forall h c h1 h2 c2,
  ck c = Ptr -> csr_copy h c = Ok (h1, c2) -> csr_free h1 c = Ok h2 ->
  csr_free h2 c = UB /\ csr_free h2 c2 = UB.
Proof.
  intros h c h1 h2 c2 K C F.
  assert (c2 = c).
  { unfold csr_copy in C. rewrite K in C. cbn [copy_mem bind] in C.
    destruct c as [k e o w]. cbn [ck cend coff cwgt] in *. subst k.
    destruct w; inversion C; reflexivity. }
  subst c2.
  assert (FR : forall h a h', hfree h a = Ok h' -> hfree h' a = UB /\
               (forall q, hblock h q = Freed -> hblock h' q = Freed)).
  { intros g a g' X. unfold hfree in X. destruct a as [p|]; [|discriminate].
    destruct (hblock g p) eqn:Hp; [|discriminate]. inversion X; subst. split.
    - cbn. rewrite hblock_eq by (eapply hblock_lt; eauto). reflexivity.
    - intros q Hq. rewrite hblock_ne; auto. intros ->; congruence. }
  assert (X : csr_free h2 c = UB); [|auto].
  unfold csr_free in F |- *. rewrite K in *. cbn [free_mem] in *.
  destruct (hfree h1 (cend c)) as [g1| | |] eqn:E1; try discriminate. cbn [bind] in F.
  destruct (hfree g1 (coff c)) as [g2| | |] eqn:E2; try discriminate. cbn [bind] in F.
  assert (Y : hfree h2 (cend c) = UB).
  { destruct (FR _ _ _ E1) as [U1 _]. destruct (FR _ _ _ E2) as [_ M2].
    unfold hfree in U1 |- *. destruct (cend c) as [p|]; auto.
    destruct (hblock g1 p) eqn:Hp; [discriminate|]. apply M2 in Hp.
    destruct (cwgt c) as [w|].
    - destruct (FR _ _ _ F) as [_ M3]. apply M3 in Hp. rewrite Hp. auto.
    - inversion F; subst. rewrite Hp. auto. }
  rewrite Y. reflexivity.
Qed.
Print Assumptions C32_csr_double_free.

Theorem C32_csr_free_empty : forall h c,
  ck c = Ptr -> cend c = None -> csr_free h c = UB.
Proof. intros h c K E. unfold csr_free. rewrite K, E. reflexivity. Qed.
Print Assumptions C32_csr_free_empty.

(** ** Allocation *)

(** What [allocate] makes of a member, in terms of loads and stores: [n]
    elements that can be stored to; a vector keeps the elements it has, up to
    the new length, and the others are 0; a raw or shared pointer gets elements
    without values.  Every other member is untouched. *)
Theorem C32_allocate : forall k h a n h' a',
  (forall p, a = Some p -> p < length h) ->
  alloc_mem k h a n = Ok (h', a') ->
  (forall i v, i < n -> exists h2, hset h' a' i v = Ok h2 /\ hget h2 a' i = Ok v) /\
  (forall i v, n <= i -> hset h' a' i v = UB /\ hget h' a' i = UB) /\
  (k = Vec -> forall i, i < n ->
     hget h' a' i = match a with
                    | None => Ok 0%Z
                    | Some p => match hblock h p with
                                | Live _ cells => if i <? length cells then hget h a i else Ok 0%Z
                                | Freed => UB
                                end
                    end) /\
  (k <> Vec -> (forall i, hget h' a' i = UB) /\ a' <> a) /\
  (forall p i, p < length h -> a <> Some p -> hget h' (Some p) i = hget h (Some p) i).
Proof.
  intros k h a n h' a' Ha E.
  assert (R0 : forall (i : nat) (x : option Z) c, i < c -> nth_error (repeat x c) i = Some x) by (intros; apply nth_error_repeat; assumption).
  assert (FN : forall (l : list (option Z)) i c, i < c -> nth_error (firstn c l) i = nth_error l i).
  { induction l as [|x l IH]; intros [|i] [|c] H; cbn; auto; try lia. apply IH. lia. }
  assert (G : exists p rc cs, a' = Some p /\ hblock h' p = Live rc cs /\ p < length h' /\ length cs = n /\
    (k <> Vec -> cs = repeat None n /\ p = length h) /\
    (k = Vec -> forall i, i < n -> match nth_error cs i with Some (Some v) => Ok v | _ => UB end =
      match a with
      | None => Ok 0%Z
      | Some q => match hblock h q with Live _ c0 => if i <? length c0 then hget h a i else Ok 0%Z | Freed => UB end
      end) /\
    (forall q, q < length h -> a <> Some q -> hblock h' q = hblock h q)).
  { destruct k; cbn [alloc_mem] in E.
    - injection E as <- <-. exists (length h), 1, (repeat None n). split; [reflexivity|]. split; [apply hblock_app_new|].
      split; [rewrite app_length; cbn; lia|]. split; [apply repeat_length|]. split; [auto|]. split; [discriminate|]. intros; now apply hblock_app_lt.
    - destruct a as [p|].
      + destruct (hblock h p) as [rc cs|] eqn:B; [|discriminate]. injection E as <- <-. pose proof (hblock_lt _ _ _ _ B) as Hp.
        exists p, rc, (firstn n cs ++ repeat (Some 0%Z) (n - length cs)). split; [reflexivity|]. split; [now apply hblock_eq|].
        split; [now rewrite lset_length|]. split; [rewrite app_length, firstn_length, repeat_length; lia|]. split; [congruence|]. split.
        * intros _ i Hi. unfold hget. rewrite B. destruct (Nat.ltb_spec i (length cs)).
          -- rewrite nth_error_app1 by (rewrite firstn_length; lia). now rewrite FN by lia.
          -- rewrite nth_error_app2 by (rewrite firstn_length; lia). rewrite R0 by (rewrite firstn_length; lia). reflexivity.
        * intros q Hq Hn. apply hblock_ne. congruence.
      + injection E as <- <-. exists (length h), 1, (repeat (Some 0%Z) n). split; [reflexivity|]. split; [apply hblock_app_new|].
        split; [rewrite app_length; cbn; lia|]. split; [apply repeat_length|]. split; [congruence|]. split.
        * intros _ i Hi. now rewrite R0.
        * intros; now apply hblock_app_lt.
    - assert (X : exists h1, release (h ++ [Live 1 (repeat None n)]) a = Ok h1 /\ h' = h1 /\ a' = Some (length h)).
      { destruct (release _ a) as [h1| | |]; cbn [bind] in E; try discriminate. injection E as <- <-. eauto. }
      destruct X as (h1 & R & -> & ->). exists (length h), 1, (repeat None n). split; [reflexivity|].
      assert (Y : forall q, a <> Some q -> hblock h1 q = hblock (h ++ [Live 1 (repeat None n)]) q).
      { intros q Hq. destruct a as [p|]; cbn [release] in R; [|injection R as <-; reflexivity].
        destruct (hblock _ p) as [[|[|rc]] cs|]; try discriminate; injection R as <-; apply hblock_ne; congruence. }
      assert (L : length h1 = S (length h)).
      { destruct a as [p|]; cbn [release] in R; [|injection R as <-; rewrite app_length; cbn; lia].
        destruct (hblock _ p) as [[|[|rc]] cs|]; try discriminate; injection R as <-; rewrite lset_length, app_length; cbn; lia. }
      assert (N : a <> Some (length h)) by (intros X; apply Ha in X; lia).
      split; [rewrite (Y _ N); apply hblock_app_new|]. split; [lia|]. split; [apply repeat_length|]. split; [auto|]. split; [discriminate|].
      intros q Hq Hn. rewrite (Y _ Hn). now apply hblock_app_lt. }
  destruct G as (p & rc & cs & -> & B & Hp & Hl & G1 & G2 & G3). split; [|split; [|split; [|split]]].
  - intros i v Hi. unfold hset. rewrite B. destruct (Nat.ltb_spec i (length cs)); [|lia]. eexists. split; [reflexivity|].
    unfold hget. rewrite hblock_eq by exact Hp. now rewrite lset_nth_error_eq.
  - intros i v Hi. unfold hset, hget. rewrite B. destruct (Nat.ltb_spec i (length cs)); [lia|]. split; [reflexivity|].
    rewrite (proj2 (nth_error_None cs i)) by lia. reflexivity.
  - intros Hk i Hi. rewrite <- (G2 Hk i Hi). unfold hget. rewrite B. reflexivity.
  - intros Hk. destruct (G1 Hk) as [C ->]. split.
    + intros i. unfold hget. rewrite B, C. destruct (Nat.lt_ge_cases i n); [now rewrite R0|].
      rewrite (proj2 (nth_error_None (repeat None n) i)) by (rewrite repeat_length; lia). reflexivity.
    + intros X. symmetry in X. apply Ha in X. lia.
  - intros q i Hq Hn. unfold hget. now rewrite (G3 q Hq Hn).
Qed.
Print Assumptions C32_allocate.

(** Growing a vector that holds two elements, beside a raw pointer. *)
Example C32_allocate_applies : exists h' a',
  alloc_mem Vec [Live 1 [Some 4%Z; Some 5%Z]; Live 1 [Some 6%Z]] (Some 0) 4 = Ok (h', a') /\
  hget h' a' 1 = Ok 5%Z /\ hget h' a' 3 = Ok 0%Z /\ hget h' (Some 1) 0 = Ok 6%Z.
Proof. do 2 eexists. split; [reflexivity|]. repeat split. Qed.

(** ** C51: building a COO from a CSR *)

(** From a weighted CSR that stores its weights in vectors: the loop reads the
    weights through a pointer into a temporary vector that is gone, for every
    such CSR with at least one entry, every storage of the COO and every order
    of the rows. *)
Theorem C51_vector_weights_dangle : forall h s ws c hdr offs es wts n ord,
  csr_in h c offs es wts -> rows_ok offs n (length es) -> Permutation ord (seq 0 n) ->
  ck c = Vec -> cwgt c <> None -> es <> [] ->
  coo_from_csr h s ws c hdr (length es) ord = UB.
Proof. exact coo_from_csr_vec. Qed.
Print Assumptions C51_vector_weights_dangle.

(** In every other case all accesses are to live storage, the COO gets the
    entries of the rows, and the storage of the CSR (the number of its owners
    included) is as before. *)
Theorem C51_other_storage : forall h s ws c hdr offs es wts n ord,
  csr_in h c offs es wts -> rows_ok offs n (length es) -> Permutation ord (seq 0 n) ->
  (ck c = Vec -> cwgt c = None) ->
  exists h' o, coo_from_csr h s ws c hdr (length es) ord = Ok (h', o) /\
    coo_rows h' o n offs es wts (match cwgt c with Some _ => true | None => false end) /\
    (forall p, p < length h -> hblock h' p = hblock h p).
Proof. exact coo_from_csr_ok. Qed.
Print Assumptions C51_other_storage.

(** ** Examples *)

(** A program over a weighted COO on raw pointers, a COO on vectors and a
    Tensor on shared pointers. *)
Definition ex_prog : list op :=
  [ ONew (CCoo Ptr Ptr true) [3; 3; 3] 2;
    OSet 0 0 0 1%Z; OSet 0 0 1 2%Z; OSet 0 1 0 0%Z; OSet 0 1 1 1%Z; OSet 0 2 0 7%Z; OSet 0 2 1 9%Z;
    OCopy 0 [[1; 0]; [0; 1]; [0; 1]];
    OTranspose 1;
    OSet 1 0 0 5%Z;
    OGet 0 0 0; OGet 0 1 0; OGet 1 0 0; OGet 1 1 0; OGet 1 2 1;
    OEmpty (CCoo Ptr Ptr true);
    OAssign 2 1 [[0; 1]; [1; 0]; [1; 0]];
    OAssign 2 2 [];
    OFree 1; OFree 1; OGet 2 0 0;
    OAssign 0 2 [[0; 1]; [1; 0]; [1; 0]];
    OFree 2; OGet 0 0 0; OInfo 0;
    OFree 0; OInfo 0;
    ODrop 0; ODrop 1; ODrop 2 ].

Example ex_prog_run : exists h E,
  run_ops [] [] ex_prog = Ok (h, E, [1; 0; 5; 1; 9; 5; 5; 2; 3; 3; 3; 0; 3; 3; 3]%Z) /\
  Forall (fun b => b = Freed) h.
Proof. eexists _, _. split; [vm_compute; reflexivity|]. repeat constructor. Qed.

Ltac perms := unfold any_order; cbn;
  repeat (apply Forall2_cons; [first [apply Permutation_refl | apply perm_swap]|]); apply Forall2_nil.
Ltac allset := unfold all_set; cbn; repeat constructor; discriminate.

Ltac dstep :=
  eapply tidily_cons;
  [ first [ exact I | intros v Hv; vm_compute in Hv; inversion Hv; subst; vm_compute; tauto ]
  | first
    [ apply does_empty
    | apply does_new; reflexivity
    | eapply does_copy; [reflexivity|allset|perms]
    | eapply does_assign; [reflexivity|reflexivity|reflexivity|]; intros N; split;
        [allset || congruence | perms || congruence]
    | eapply does_free; [reflexivity|cbn; lia]
    | eapply does_free_empty; [reflexivity|reflexivity]
    | eapply does_transpose; reflexivity
    | eapply does_hdr; reflexivity
    | eapply does_set; [reflexivity|reflexivity|cbn; lia]
    | eapply does_get; reflexivity
    | eapply does_info; reflexivity
    | eapply does_drop; reflexivity ]
  | cbn ].

(** It makes sense on values, and it is tidy. *)
Example ex_prog_does : exists A,
  does_tidily [] ex_prog A [1; 0; 5; 1; 9; 5; 5; 2; 3; 3; 3; 0; 3; 3; 3]%Z /\
  A = [None; None; None].
Proof.
  unfold ex_prog. evar (outs : list Z). evar (A : vars).
  assert (X : does_tidily [] ex_prog A outs).
  { unfold A, outs, ex_prog. do 27 dstep. dstep. dstep. dstep. apply tidily_nil. }
  exists A. split; [|reflexivity]. exact X.
Qed.

(** A CSR of two rows, [0: 1(10) 2(20)] and [1: 0(30)], and an empty third. *)
Definition ex_csr_heap : heap :=
  [ Live 1 [Some 0; Some 2; Some 3; Some 3]%Z; Live 1 [Some 1; Some 2; Some 0]%Z;
    Live 1 [Some 10; Some 20; Some 30]%Z ].
Definition ex_csr (k : kind) (weighted : bool) : csrobj :=
  mkCsrObj k (Some 1) (Some 0) (if weighted then Some (Some 2) else None).

Example ex_csr_in : forall k wgt,
  csr_in ex_csr_heap (ex_csr k wgt) [0; 2; 3; 3] [1; 2; 0]%Z [10; 20; 30]%Z.
Proof.
  intros k wgt. exists 0, 1, 0, 0. repeat split; try reflexivity; try discriminate.
  destruct wgt; cbn; auto. exists 2, 0. repeat split; discriminate.
Qed.

Example ex_rows_ok : rows_ok [0; 2; 3; 3] 3 3.
Proof. constructor; try reflexivity. intros [|[|[|v]]] H; cbn; lia. Qed.

Example ex_csr_vec : coo_from_csr ex_csr_heap Vec Vec (ex_csr Vec true) [3; 3; 3] 3 [0; 1; 2] = UB.
Proof. reflexivity. Qed.

Example ex_csr_sptr : exists h' o,
  coo_from_csr ex_csr_heap Ptr Vec (ex_csr Sptr true) [3; 3; 3] 3 [2; 0; 1] = Ok (h', o) /\
  h' = ex_csr_heap ++ [ Live 1 [Some 0; Some 0; Some 1]%Z; Live 1 [Some 1; Some 2; Some 0]%Z;
                        Live 1 [Some 10; Some 20; Some 30]%Z ].
Proof. eexists _, _. split; reflexivity. Qed.

(** Copying such a CSR, storing through the copy, and freeing both. *)
Example ex_csr_share : exists h1 c1 h2 h3,
  csr_copy ex_csr_heap (ex_csr Ptr true) = Ok (h1, c1) /\
  hset h1 (cend c1) 2 8%Z = Ok h2 /\ hget h2 (cend (ex_csr Ptr true)) 2 = Ok 8%Z /\
  csr_free h2 c1 = Ok h3 /\ csr_free h3 (ex_csr Ptr true) = UB.
Proof. eexists _, _, _, _. repeat split; reflexivity. Qed.

Example ex_csr_vec_copy : exists h1 c1 h2,
  csr_copy ex_csr_heap (ex_csr Vec true) = Ok (h1, c1) /\
  hset h1 (cend c1) 2 8%Z = Ok h2 /\ hget h2 (cend (ex_csr Vec true)) 2 = Ok 0%Z.
Proof. eexists _, _, _. repeat split; reflexivity. Qed.
