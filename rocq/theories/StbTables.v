(** * StbTables: the tables of powers of ten, and the estimate of the exponent *)

From Coq Require Import ZArith QArith Qabs Qpower Lqa Lia SpecFloat.
From Verif Require Import Base SpecFp64 Fp64 Fp64Near Stb StbArith StbExact StbBits StbCoarse StbRaise.
Open Scope Z_scope.

(** [10^k]. *)
Definition ten (k : Z) : Q := ((10 # 1) ^ k)%Q.
Lemma ten_pos k : (0 < ten k)%Q.
Proof. apply Qpower_0_lt. reflexivity. Qed.
Lemma ten_add a b : (ten (a + b) == ten a * ten b)%Q.
Proof. apply Qpower_plus. discriminate. Qed.
Lemma ten_Z k : 0 <= k -> (ten k == inject_Z (10 ^ k))%Q.
Proof. intros H. unfold ten. rewrite Zpower_Qpower by exact H. reflexivity. Qed.

Definition entry_b (t te : spec_float) (T : Q) : bool :=
  match t with
  | S754_finite false my ey =>
      valid_binary 53 1024 t && (2 ^ 52 <=? Zpos my) && valid_binary 53 1024 te &&
      match sf_value te with
      | Some q => Qle_bool (- (e100 * T)) (inject_Z (Zpos my) * pow2 ey + q - T) && Qle_bool (inject_Z (Zpos my) * pow2 ey + q - T) (e100 * T) &&
                  Qle_bool (- (e50 * T)) q && Qle_bool q (e50 * T)
      | None => false
      end
  | _ => false
  end.
Lemma entry_b_ok t te T : entry_b t te T = true -> exists my ey tev, entry t te T my ey tev /\ sf_value te = Some tev.
Proof.
  unfold entry_b. destruct t as [s|s| |[] my ey]; try discriminate. intros H. apply andb_prop in H as [H H4]. apply andb_prop in H as [H H3].
  apply andb_prop in H as [H1 H2]. apply Z.leb_le in H2. destruct (sf_value te) as [q|] eqn:E; [|discriminate].
  apply andb_prop in H4 as [H4 K4]. apply andb_prop in H4 as [H4 K3]. apply andb_prop in H4 as [K1 K2]. apply Qle_bool_imp_le in K1, K2, K3, K4.
  exists my, ey, q. split; [|reflexivity]. split; [reflexivity|]. split; [exact H1|]. split; [exact H2|]. split; [split; [exact H3|exists q; split; [exact E|reflexivity]]|].
  split; split; assumption.
Qed.

Definition int_b (m e : Z) : bool := (0 <=? e) || (m mod 2 ^ (- e) =? 0).
Lemma int_b_ok m e : int_b m e = true -> is_int (inject_Z m * pow2 e).
Proof.
  unfold int_b. destruct (Z.leb_spec 0 e) as [He|He]; cbn [orb]; intros H.
  - exists (m * 2 ^ e). rewrite (pow2_Z e He), inject_Z_mult. reflexivity.
  - apply Z.eqb_eq in H. exists (m / 2 ^ (- e)). pose proof (Z.div_mod m (2 ^ (- e)) ltac:(apply Z.pow_nonzero; lia)) as D. rewrite H, Z.add_0_r in D.
    rewrite D at 1. rewrite inject_Z_mult, <- (pow2_Z (- e)) by lia. setoid_replace (pow2 (- e) * inject_Z (m / 2 ^ (- e)) * pow2 e)%Q with (inject_Z (m / 2 ^ (- e)) * (pow2 (- e) * pow2 e))%Q by ring.
    rewrite <- pow2_add. replace (- e + e) with 0 by lia. change (pow2 0) with 1%Q. ring.
Qed.
Definition split_b (my : positive) (ey : Z) : bool := int_b (Zpos my - Zpos my mod 2 ^ 27) ey && int_b (Zpos my mod 2 ^ 27) ey && (-52 <=? ey).
Lemma split_b_ok my ey : split_b my ey = true -> intsplit my ey /\ -52 <= ey.
Proof. unfold split_b. intros H. apply andb_prop in H as [H H3]. apply andb_prop in H as [H1 H2]. apply Z.leb_le in H3. split; [split; apply int_b_ok; assumption|exact H3]. Qed.

Definition exact_b (t : spec_float) (T : Q) : bool :=
  match t with
  | S754_finite false my ey => valid_binary 53 1024 t && (2 ^ 52 <=? Zpos my) && Qeq_bool (inject_Z (Zpos my) * pow2 ey) T && split_b my ey
  | _ => false
  end.
Lemma exact_b_ok t T : exact_b t T = true -> exists my ey, exact10 t T my ey.
Proof.
  unfold exact_b. destruct t as [s|s| |[] my ey]; try discriminate. intros H. apply andb_prop in H as [H H4]. apply andb_prop in H as [H H3].
  apply andb_prop in H as [H1 H2]. apply Z.leb_le in H2. apply Qeq_bool_eq in H3. destruct (split_b_ok _ _ H4).
  exists my, ey. split; [reflexivity|]. split; [exact H1|]. split; [exact H2|]. auto.
Qed.

Lemma In_range a n i : a <= i < a + Z.of_nat n -> In i (map (fun j => a + Z.of_nat j) (seq 0 n)).
Proof. intros H. apply in_map_iff. exists (Z.to_nat (i - a)). split; [lia|]. apply in_seq. lia. Qed.

Definition tab_b {A} (l : list A) (i : Z) (f : A -> bool) : bool := match tab l i with Ok x => f x | _ => false end.
Lemma tab_b_ok {A} (l : list A) i f : tab_b l i f = true -> exists x, tab l i = Ok x /\ f x = true.
Proof. unfold tab_b. destruct (tab l i); intros H; try discriminate. eauto. Qed.

Lemma bot_table n : 0 <= n <= 22 -> exists t my ey, tab bot n = Ok t /\ exact10 t (ten n) my ey.
Proof.
  intros H. assert (K : forallb (fun i => tab_b bot i (fun t => exact_b t (ten i))) (map (fun j => 0 + Z.of_nat j) (seq 0 23)) = true) by (vm_compute; reflexivity).
  rewrite forallb_forall in K. specialize (K n (In_range 0 23 n ltac:(lia))). apply tab_b_ok in K as (t & Et & K). apply exact_b_ok in K as (my & ey & K). eauto.
Qed.
Lemma negbot_table n : 1 <= n <= 22 -> exists t te my ey tev, tab negbot (n - 1) = Ok t /\ tab negboterr (n - 1) = Ok te /\ entry t te (ten (- n)) my ey tev.
Proof.
  intros H. assert (K : forallb (fun i => tab_b negbot (i - 1) (fun t => tab_b negboterr (i - 1) (fun te => entry_b t te (ten (- i))))) (map (fun j => 1 + Z.of_nat j) (seq 0 22)) = true) by (vm_compute; reflexivity).
  rewrite forallb_forall in K. specialize (K n (In_range 1 22 n ltac:(lia))). apply tab_b_ok in K as (t & Et & K). apply tab_b_ok in K as (te & Ete & K).
  apply entry_b_ok in K as (my & ey & tev & K & _). exists t, te, my, ey, tev. auto.
Qed.
Lemma negtop_table n : 1 <= n <= 12 -> exists t te my ey tev, tab negtop (n - 1) = Ok t /\ tab negtoperr (n - 1) = Ok te /\ entry t te (ten (- (23 * n))) my ey tev.
Proof.
  intros H. assert (K : forallb (fun i => tab_b negtop (i - 1) (fun t => tab_b negtoperr (i - 1) (fun te => entry_b t te (ten (- (23 * i)))))) (map (fun j => 1 + Z.of_nat j) (seq 0 12)) = true) by (vm_compute; reflexivity).
  rewrite forallb_forall in K. specialize (K n (In_range 1 12 n ltac:(lia))). apply tab_b_ok in K as (t & Et & K). apply tab_b_ok in K as (te & Ete & K).
  apply entry_b_ok in K as (my & ey & tev & K & _). exists t, te, my, ey, tev. auto.
Qed.
Definition sint_b (z : spec_float) : bool := match z with S754_zero _ => true | S754_finite _ m e => int_b (Zpos m) e | _ => false end.
Lemma sint_ok z q : sint_b z = true -> sf_value z = Some q -> is_int q.
Proof.
  destruct z as [s|s| |s m e]; cbn [sint_b sf_value]; intros H E; try discriminate; injection E as <-.
  - exists 0. reflexivity.
  - destruct (int_b_ok _ _ H) as [n En]. destruct s; [exists (- n)%Z|exists n; exact En]. rewrite inject_Z_opp, <- En. ring.
Qed.
Lemma top_table n : 1 <= n <= 13 -> exists t te my ey tev, tab top (n - 1) = Ok t /\ tab toperr (n - 1) = Ok te /\ entry t te (ten (23 * n)) my ey tev /\
  intsplit my ey /\ -52 <= ey /\ is_int tev.
Proof.
  intros H. assert (K : forallb (fun i => tab_b top (i - 1) (fun t => tab_b toperr (i - 1) (fun te => entry_b t te (ten (23 * i)) && sint_b te &&
     match t with S754_finite _ my ey => split_b my ey | _ => false end))) (map (fun j => 1 + Z.of_nat j) (seq 0 13)) = true) by (vm_compute; reflexivity).
  rewrite forallb_forall in K. specialize (K n (In_range 1 13 n ltac:(lia))). apply tab_b_ok in K as (t & Et & K). apply tab_b_ok in K as (te & Ete & K).
  apply andb_prop in K as [K K3]. apply andb_prop in K as [K K2]. apply entry_b_ok in K as (my & ey & tev & K & Ev). exists t, te, my, ey, tev.
  split; [exact Et|]. split; [exact Ete|]. split; [exact K|]. destruct K as (-> & _). destruct (split_b_ok _ _ K3). split; [assumption|]. split; [assumption|].
  eapply sint_ok; eassumption.
Qed.

(** ** The estimate, for every exponent *)
Definition far_ok (E : Z) : bool :=
  let k := 18 - tens_est (E + 1023) in
  let e := Z.abs k in
  let et0 := Z.shiftr (e * 713) 14 in
  let et := if 13 <? et0 then 13 else et0 in
  let eb := e - et * 23 in
  (-290 <=? k) && (k <=? 400) &&
  (((0 <=? k) && (k <=? 22) && (-16 <=? E) && (E <=? 59)) ||
  (Qle_bool (inject_Z (10 ^ 17 + (if E <? -1022 then 10 ^ 6 else 2))) (pow2 E * ten k) && Qle_bool (pow2 (E + 1) * ten k) (inject_Z (2 ^ 62 - 10 ^ 6)) &&
   ((k <? 0) && (0 <=? et) && (et <=? 12) && (0 <=? eb) && (eb <=? 22) && Qle_bool (inject_Z 2) (pow2 E * ten (- eb)) &&
     Qle_bool (32 * (pow2 (E + 1) * ten (- eb))) maxd
   || (22 <? k) && (1 <=? et) && (et <=? 13) && (0 <=? eb) && (eb <=? 42) && Qle_bool (2 * pow2 (-1022)) (pow2 E * ten (Z.min eb 22)) &&
     Qle_bool (32 * (pow2 (E + 1) * ten (Z.min eb 22))) maxd && Qle_bool (32 * (pow2 (E + 1) * ten eb)) maxd))).
Lemma far_all E : -1074 <= E <= 1023 -> far_ok E = true.
Proof.
  intros H. assert (K : forallb far_ok (map (fun j => -1074 + Z.of_nat j) (seq 0 2098)) = true) by (vm_cast_no_check (eq_refl true)).
  rewrite forallb_forall in K. apply K. apply (In_range (-1074) 2098). change (Z.of_nat 2098) with 2098. lia.
Qed.
