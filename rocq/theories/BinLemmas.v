(** * BinLemmas: sequential and parallel transfers *)

From Coq Require Import Permutation.
From Verif Require Import Base Reader Sched SchedLemmas SchedMore Coo Ascii Csr Codec Bin.

(** ** The shares of the threads *)
Lemma seq_app' a n m : seq a (n + m) = seq a n ++ seq (a + n) m.
Proof. apply seq_app. Qed.

Lemma shares_prefix q n T : n < T -> concat (map (fun t => seq (t * q) (if t =? T - 1 then 0 else q)) (seq 0 n)) = seq 0 (n * q).
Proof.
  intros Hn. induction n as [|n IH]; [reflexivity|].
  rewrite seq_S, map_app, concat_app, IH by lia. cbn [map concat plus].
  destruct (Nat.eqb_spec n (T - 1)); [lia|]. rewrite app_nil_r.
  replace (S n * q) with (n * q + q) by lia. rewrite seq_app. reflexivity.
Qed.

Lemma concat_shares v T : 1 <= T -> concat (shares v T) = seq 0 v.
Proof.
  intros HT. unfold shares. set (q := v / T).
  assert (Hq : q * T <= v) by (unfold q; rewrite Nat.mul_comm; apply Nat.mul_div_le; lia).
  replace T with (S (T - 1)) at 2 by lia. rewrite seq_S, map_app, concat_app. cbn [map concat plus].
  rewrite app_nil_r.
  assert (E : map (share v T) (seq 0 (T - 1)) = map (fun t => seq (t * q) (if t =? T - 1 then 0 else q)) (seq 0 (T - 1))).
  { apply map_ext_in. intros t Ht. apply in_seq in Ht. unfold share. fold q. destruct (Nat.eqb_spec t (T - 1)); [lia|reflexivity]. }
  rewrite E, shares_prefix by lia. unfold share. fold q. rewrite Nat.eqb_refl.
  assert (q * (T - 1) <= v) by nia.
  replace v with ((T - 1) * q + (v - q * (T - 1))) at 2 by lia. rewrite seq_app. reflexivity.
Qed.

(** ** Writing *)
Definition ones (l : list (option byte)) : list fcell := map (fun b => (b, 1)) l.
Definition zeros (l : list (option byte)) : list fcell := map (fun b => (b, 0)) l.
(** A file of which the bytes [a] have been written once, in front of bytes not
    written yet. *)
Definition half (a r : list (option byte)) : wfile := mkWfile (ones a ++ zeros r) (length a).

Lemma ones_length l : length (ones l) = length l.
Proof. apply map_length. Qed.
Lemma zeros_length l : length (zeros l) = length l.
Proof. apply map_length. Qed.

Lemma fstore_half a b b0 r : fstore (length a) b (ones a ++ zeros (b0 :: r)) = Ok (ones (a ++ [b]) ++ zeros r).
Proof.
  unfold fstore. rewrite nth_error_app2 by (rewrite ones_length; lia).
  rewrite ones_length, Nat.sub_diag. cbn [zeros map nth_error].
  rewrite <- (ones_length a). rewrite upd_mid. unfold ones at 2. rewrite map_app. cbn [map].
  rewrite <- app_assoc. reflexivity.
Qed.

Lemma put_ok bs : forall a r, length bs <= length r ->
  put_bytes bs (half a r) = Ok (half (a ++ bs) (skipn (length bs) r)).
Proof.
  induction bs as [|b bs IH]; intros a r Hr; cbn [put_bytes].
  - rewrite app_nil_r. reflexivity.
  - destruct r as [|b0 r]; [cbn in Hr; lia|]. 
    change (wf_fp (half a (b0 :: r))) with (length a). change (wf_data (half a (b0 :: r))) with (ones a ++ zeros (b0 :: r)).
    rewrite fstore_half. cbn [bind].
    assert (E : mkWfile (ones (a ++ [b]) ++ zeros r) (S (length a)) = half (a ++ [b]) r).
    { unfold half. rewrite app_length. cbn [length]. f_equal. lia. }
    rewrite E. rewrite IH by (cbn in Hr; lia).
    rewrite <- app_assoc. reflexivity.
Qed.

Lemma wcopy_comm src fp i j : i <> j -> comm (wcopy src fp) i j.
Proof.
  intros Hij s. unfold wcopy, aget.
  destruct (nth_error src i) as [ci|] eqn:Ei; cbn [bind].
  2:{ destruct (nth_error src j) as [cj|] eqn:Ej; cbn [bind]; [|reflexivity].
      unfold fstore. destruct (nth_error s (fp + j)) as [[? ?]|]; reflexivity. }
  destruct (nth_error src j) as [cj|] eqn:Ej; cbn [bind].
  2:{ unfold fstore. destruct (nth_error s (fp + i)) as [[? ?]|]; reflexivity. }
  unfold fstore.
  destruct (nth_error s (fp + i)) as [[? ?]|] eqn:E1; destruct (nth_error s (fp + j)) as [[? ?]|] eqn:E2; cbn [bind];
    rewrite ?nth_error_upd_ne by lia; rewrite ?E1, ?E2; cbn [bind]; try reflexivity.
  rewrite upd_comm by lia. reflexivity.
Qed.

Lemma NoDup_app_tail {A} (a b : list A) : NoDup (a ++ b) -> NoDup b.
Proof. induction a as [|x a IH]; intros H; [exact H|]. inversion H; subst. apply IH; assumption. Qed.

Lemma NoDup_concat_indep {S} (exec : nat -> S -> res S) (ps : list (list nat)) :
  (forall i j, i <> j -> comm exec i j) -> NoDup (concat ps) -> ForallOrdPairs (indep exec) ps.
Proof.
  intros HC. induction ps as [|p ps IH]; intros HN; [constructor|]. cbn [concat] in HN.
  pose proof (NoDup_app_tail _ _ HN) as HN2. constructor; [|apply IH; exact HN2].
  apply Forall_forall. intros q Hq i j Hi Hj. apply HC. intros <-.
  clear IH HN2. induction p as [|a p IHp]; [destruct Hi|]. cbn [app] in HN. inversion HN as [|? ? Hna HN']; subst.
  destruct Hi as [->|Hi]; [|apply IHp; assumption].
  apply Hna. apply in_or_app. right. apply in_concat. exists q. split; assumption.
Qed.

Lemma wcopy_seq src : forall n k a b r, n <= length src - k -> k <= length src -> n <= length r -> length b = k ->
  exec_all (wcopy src (length a)) (seq k n) (ones (a ++ b) ++ zeros r) =
  Ok (ones (a ++ b ++ firstn n (skipn k src)) ++ zeros (skipn n r)).
Proof.
  induction n as [|n IH]; intros k a b r H1 H2 H3 Hb; cbn [seq exec_all].
  - cbn [firstn]. rewrite app_nil_r. reflexivity.
  - destruct r as [|b0 r]; [cbn in H3; lia|].
    unfold wcopy at 1, aget. destruct (nth_error src k) as [c|] eqn:Ec.
    2:{ apply nth_error_None in Ec. lia. }
    cbn [bind].
    assert (E : length a + k = length (a ++ b)) by (rewrite app_length; lia).
    rewrite E, fstore_half. cbn [bind].
    rewrite <- app_assoc. rewrite IH; [|lia|lia|cbn in H3; lia|rewrite app_length; cbn; lia].
    rewrite <- app_assoc.
    assert (Es : firstn (S n) (skipn k src) = c :: firstn n (skipn (S k) src)).
    { clear -Ec. revert k Ec. induction src as [|s0 src IHs]; intros [|k] Ec; cbn [nth_error] in Ec; try discriminate.
      - injection Ec as ->. reflexivity.
      - cbn [skipn]. apply IHs in Ec. exact Ec. }
    rewrite Es. reflexivity.
Qed.

Lemma par_write_ok src v T sched a r : 1 <= T -> v = length src -> v <= length r ->
  par_write src v (T, sched) (half a r) = Ok (half (a ++ src) (skipn v r)).
Proof.
  intros HT -> Hr. unfold par_write, half at 1 2. cbn [wf_fp wf_data fst snd].
  rewrite run_indep.
  2:{ apply NoDup_concat_indep; [apply wcopy_comm|]. rewrite concat_shares by exact HT. apply seq_NoDup. }
  rewrite concat_shares by exact HT.
  pose proof (wcopy_seq src (length src) 0 a [] r) as H. rewrite app_nil_r in H. rewrite H; [|lia|lia|lia|reflexivity].
  cbn [bind skipn app]. rewrite firstn_all. unfold half. cbn [wf_fp]. rewrite app_length. reflexivity.
Qed.

Lemma open_write_ok n : 0 < n -> exists r, length r = n /\ open_write n = Ok (half [] r).
Proof.
  intros Hn. destruct n as [|k]; [lia|]. exists (map Some (repeat 0%Z k ++ [1%Z])). split.
  - rewrite map_length, app_length, repeat_length. cbn. lia.
  - unfold open_write. cbn [new_file bind]. unfold half, ones, zeros. cbn [map app length].
    rewrite !map_map. reflexivity.
Qed.

(** ** Reading *)
Lemma load_app s pg pre b post : s = pre ++ b :: post -> load (mkMem s pg) (length pre) = Ok b.
Proof.
  intros ->. unfold load. cbn [bytes]. rewrite nth_error_app2 by lia. rewrite Nat.sub_diag. reflexivity.
Qed.

Lemma load_n_app s pg bs : forall pre post, s = pre ++ bs ++ post -> load_n (mkMem s pg) (length bs) (length pre) = Ok bs.
Proof.
  induction bs as [|b bs IH]; intros pre post E; cbn [length load_n]; [reflexivity|].
  rewrite (load_app s pg pre b (bs ++ post)) by exact E. cbn [bind].
  specialize (IH (pre ++ [b]) post). rewrite app_length in IH. cbn [length] in IH.
  replace (length pre + 1) with (S (length pre)) in IH by lia. rewrite IH; [reflexivity|].
  rewrite E, <- app_assoc. reflexivity.
Qed.

Lemma str_eq_refl s : str_eq s s = true.
Proof. induction s as [|a s IH]; [reflexivity|]. cbn [str_eq]. rewrite Z.eqb_refl, IH. reflexivity. Qed.
Lemma str_eq_true a : forall b, str_eq a b = true <-> a = b.
Proof.
  induction a as [|x a IH]; intros [|y b]; cbn [str_eq]; split; intros H; try reflexivity; try discriminate.
  - apply andb_prop in H as [H1 H2]. apply Z.eqb_eq in H1. apply IH in H2. congruence.
  - injection H as -> ->. rewrite Z.eqb_refl. cbn. apply IH. reflexivity.
Qed.

(** A reader of [s] at the position after [pre]. *)
Definition reading (s : list byte) (pg : nat) (fn : list byte) (pre : list byte) : rfile :=
  mkRfile (mkMem s pg) (length pre) fn.

Lemma at_str_ok s pg pre b post : s = pre ++ b ++ post -> post <> [] ->
  at_str (mkMem s pg) (length s) (length pre) b = Ok true.
Proof.
  intros E Hp. unfold at_str. destruct (Nat.leb_spec (length s) (length pre + length b)).
  - subst s. rewrite !app_length in H. destruct post; [congruence|cbn in H; lia].
  - rewrite (load_n_app s pg b pre post E). cbn [bind]. rewrite str_eq_refl. reflexivity.
Qed.

Lemma rd_str_ok s pg fn pre b post : s = pre ++ b ++ post -> post <> [] ->
  rd_str b (reading s pg fn pre) = Ok (reading s pg fn (pre ++ b)).
Proof.
  intros E Hp. unfold rd_str, reading. cbn [rf_mem rf_fp rf_name]. unfold flen. cbn [bytes].
  rewrite (at_str_ok s pg pre b post E Hp). cbn [bind]. rewrite app_length. reflexivity.
Qed.

Lemma rd_ok {V} (c : codec V) s pg fn pre bs post : s = pre ++ bs ++ post -> length bs = cd_size c ->
  rd c (reading s pg fn pre) = Ok (cd_dec c bs, reading s pg fn (pre ++ bs)).
Proof.
  intros E Hl. unfold rd, reading. cbn [rf_mem rf_fp rf_name]. rewrite <- Hl.
  rewrite (load_n_app s pg bs pre post E). cbn [bind]. rewrite app_length. reflexivity.
Qed.

Lemma rcopy_comm m fp i j : i <> j -> comm (rcopy m fp) i j.
Proof.
  intros Hij s. unfold rcopy.
  assert (HL : forall k, load m k = UB \/ exists b, load m k = Ok b).
  { intros k. unfold load. destruct (nth_error _ _); [right; eauto|]. destruct (_ <? _); [right; eauto|left; reflexivity]. }
  destruct (HL (fp + i)) as [Ei|[bi Ei]]; destruct (HL (fp + j)) as [Ej|[bj Ej]]; rewrite ?Ei, ?Ej; cbn [bind]; try reflexivity.
  - unfold aset. destruct (_ <? _); cbn [bind]; rewrite ?Ei; reflexivity.
  - unfold aset. destruct (_ <? _); cbn [bind]; rewrite ?Ej; reflexivity.
  - unfold aset. destruct (Nat.ltb_spec i (length s)), (Nat.ltb_spec j (length s)); cbn [bind]; rewrite ?Ei, ?Ej; cbn [bind];
      rewrite ?upd_length; repeat match goal with |- context [(?a <? ?b)] => destruct (Nat.ltb_spec a b) end; try lia; try reflexivity.
    rewrite upd_comm by auto. reflexivity.
Qed.

Lemma rcopy_seq s pg pre post : forall b2 b1, s = pre ++ b1 ++ b2 ++ post -> forall r, length r = length b2 ->
  exec_all (rcopy (mkMem s pg) (length pre)) (seq (length b1) (length b2)) (map Some b1 ++ r) = Ok (map Some (b1 ++ b2)).
Proof.
  induction b2 as [|b b2 IH]; intros b1 E r Hr; cbn [length seq exec_all].
  - destruct r; [|cbn in Hr; lia]. rewrite !app_nil_r. reflexivity.
  - destruct r as [|r0 r]; [cbn in Hr; lia|]. unfold rcopy at 1.
    pose proof (load_app s pg (pre ++ b1) b (b2 ++ post)) as HL. rewrite app_length in HL.
    rewrite HL by (rewrite E, <- app_assoc; reflexivity). cbn [bind]. unfold aset.
    rewrite app_length, map_length. cbn [length]. destruct (Nat.ltb_spec (length b1) (length b1 + S (length r))); [|lia]. cbn [bind].
    assert (EU : upd (length b1) (Some b) (map Some b1 ++ r0 :: r) = map Some (b1 ++ [b]) ++ r).
    { rewrite <- (map_length (@Some byte) b1). rewrite upd_mid, map_app, <- app_assoc. reflexivity. }
    rewrite EU. specialize (IH (b1 ++ [b])). rewrite app_length in IH. cbn [length] in IH.
    replace (length b1 + 1) with (S (length b1)) in IH by lia. rewrite IH.
    + rewrite <- app_assoc. reflexivity.
    + rewrite E, <- !app_assoc. reflexivity.
    + cbn in Hr. lia.
Qed.

Lemma par_read_ok s pg fn pre b post T sched v cap : s = pre ++ b ++ post -> 1 <= T -> v = length b -> cap = length b ->
  par_read cap v (T, sched) (reading s pg fn pre) = Ok (map Some b, reading s pg fn (pre ++ b)).
Proof.
  intros E HT -> ->. unfold par_read, reading. cbn [rf_mem rf_fp rf_name fst snd].
  rewrite run_indep.
  2:{ apply NoDup_concat_indep; [apply rcopy_comm|]. rewrite concat_shares by exact HT. apply seq_NoDup. }
  rewrite concat_shares by exact HT.
  pose proof (rcopy_seq s pg pre post b [] E (fresh (length b)) (fresh_length _)) as H. cbn [map app length] in H.
  rewrite H. cbn [bind]. rewrite app_length. reflexivity.
Qed.

Lemma all_some_ok l : all_some (map Some l) = Some l.
Proof. induction l as [|a l IH]; [reflexivity|]. cbn [map all_some]. rewrite IH. reflexivity. Qed.

Lemma firstn_exact {A} (a b : list A) n : n = length a -> firstn n (a ++ b) = a.
Proof. intros ->. rewrite firstn_app, firstn_all, Nat.sub_diag. cbn. apply app_nil_r. Qed.
Lemma skipn_exact {A} (a b : list A) n : n = length a -> skipn n (a ++ b) = b.
Proof. intros ->. rewrite skipn_app, skipn_all, Nat.sub_diag. reflexivity. Qed.

Lemma unraw_ok {V} (c : codec V) (P : V -> Prop) vs : faithful P c -> Forall P vs ->
  unraw c (length vs) (map Some (flat_map (cd_enc c) vs)) = map Some vs.
Proof.
  intros (Hp & Hl & Hd) HF. induction HF as [|v vs Hv HF IH]; [reflexivity|].
  cbn [length unraw flat_map map]. rewrite map_app.
  rewrite firstn_exact by (rewrite map_length, Hl; reflexivity).
  rewrite skipn_exact by (rewrite map_length, Hl; reflexivity).
  rewrite all_some_ok, IH, (Hd v Hv). reflexivity.
Qed.

Lemma flat_enc_length {V} (c : codec V) (P : V -> Prop) vs : faithful P c -> length (flat_map (cd_enc c) vs) = cd_size c * length vs.
Proof.
  intros (_ & Hl & _). induction vs as [|v vs IH]; cbn [flat_map length]; [lia|]. rewrite app_length, IH, Hl. lia.
Qed.

Lemma rd_array_ok {V} (c : codec V) P s pg fn pre vs post T sched k v :
  faithful P c -> Forall P vs -> s = pre ++ flat_map (cd_enc c) vs ++ post -> 1 <= T ->
  k = length vs -> v = cd_size c * length vs ->
  rd_array c k v (T, sched) (reading s pg fn pre) = Ok (map Some vs, reading s pg fn (pre ++ flat_map (cd_enc c) vs)).
Proof.
  intros HF HP E HT -> ->. unfold rd_array. pose proof (flat_enc_length c P vs HF) as HL.
  rewrite (par_read_ok s pg fn pre (flat_map (cd_enc c) vs) post); [|exact E|exact HT|lia|lia].
  cbn [bind]. rewrite (unraw_ok c P vs HF HP). reflexivity.
Qed.

(** The memory image of an array. *)
Lemma raw_length {V} (c : codec V) P (l : list (option V)) : faithful P c -> length (raw c l) = cd_size c * length l.
Proof.
  intros (_ & Hl & _). unfold raw. induction l as [|o l IH]; cbn [flat_map length]; [lia|].
  rewrite app_length, IH. destruct o; cbn [cell_bytes]; rewrite ?map_length, ?repeat_length, ?Hl; lia.
Qed.
Lemma raw_some {V} (c : codec V) vs : raw c (map Some vs) = map Some (flat_map (cd_enc c) vs).
Proof.
  unfold raw. induction vs as [|v vs IH]; [reflexivity|]. cbn [map flat_map cell_bytes]. rewrite IH, map_app. reflexivity.
Qed.
Lemma cell_bytes_length {V} (c : codec V) P o : faithful P c -> length (cell_bytes c o) = cd_size c.
Proof. intros (_ & Hl & _). destruct o; cbn [cell_bytes]; [rewrite map_length; apply Hl|apply repeat_length]. Qed.
