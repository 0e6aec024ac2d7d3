(** * CrashRead: reading files that are stored in part *)

From Coq Require Import String.
From Verif Require Import Base Reader Sched SchedLemmas CooExec Coo Ascii Csr SpecCsr CsrLemmas Codec Bin SpecBin BinLemmas BinSave BinLoad Graph Load Tensor BinOpen BinBad SpecReweigh Reweigh SpecCut Cut P_Bin P_BinBad Crash SpecCrash CrashLemmas P_Cut.
Notation length := List.length.
Open Scope list_scope.

(** ** Headers *)
Lemma in_place_app (h r s : list byte) p : p <= length h -> in_place (h ++ r) s 0 p -> firstn p s = firstn p h.
Proof.
  intros Hp H. pose proof (window_in_place (h ++ r) s p 0 H) as E. cbn [skipn] in E. rewrite E.
  rewrite firstn_app. replace (p - length h) with 0 by lia. rewrite firstn_O, app_nil_r. reflexivity.
Qed.

Lemma head_in_place (h r s : list byte) : in_place (h ++ r) s 0 (length h) -> s = h ++ skipn (length h) s.
Proof.
  intros H. rewrite <- (firstn_skipn (length h) s) at 1. f_equal. rewrite (in_place_app h r s (length h) (le_n _) H). apply firstn_all.
Qed.

Definition lower (x y : byte) : Prop := x = y \/ x = 0%Z.

(** A header [h1 ++ h2] of which the first part is in place. *)
Lemma head_partly (h1 h2 r s : list byte) : partly_stored (h1 ++ h2 ++ r) s -> in_place (h1 ++ h2 ++ r) s 0 (length h1) -> 0 < length r ->
  exists h2', s = h1 ++ h2' ++ skipn (length h1 + length h2) s /\ Forall2 lower h2' h2.
Proof.
  intros HP HI Hr. exists (firstn (length h2) (skipn (length h1) s)). split.
  - rewrite (head_in_place h1 (h2 ++ r) s HI) at 1. f_equal. rewrite <- (firstn_skipn (length h2) (skipn (length h1) s)) at 1. f_equal. apply skipn_add.
  - pose proof (window_partly _ s (length h2) (length h1) HP) as H. rewrite !app_length in H. specialize (H ltac:(lia)).
    rewrite (skipn_exact h1 (h2 ++ r)) in H by reflexivity. rewrite firstn_exact in H by reflexivity. exact H.
Qed.

Lemma lower_ints (fs : list (ity * Z)) : forall bs, Forall (fun f => is_ity (fst f) /\ inrange (fst f) (snd f) = true) fs ->
  Forall2 lower bs (flat_map (fun f => enc (fst f) (snd f)) fs) ->
  exists zs, bs = flat_map (fun f => enc (fst f) (snd f)) (combine (map fst fs) zs) /\
    Forall2 (fun f z => inrange (fst f) z = true /\ ((0 <= snd f)%Z -> (0 <= z <= snd f)%Z)) fs zs.
Proof.
  induction fs as [|[t z] fs IH]; intros bs HF H.
  - exists []. cbn in H. inversion H. split; [reflexivity|constructor].
  - cbn [flat_map fst snd] in H. apply Forall2_app_inv_r in H as (b1 & b2 & H1 & H2 & ->).
    destruct (IH b2 (Forall_inv_tail HF) H2) as (zs & -> & HZ). destruct (Forall_inv HF) as (Ht & Hz). cbn [fst snd] in Ht, Hz.
    destruct (partial_int t z b1 Ht Hz H1) as (z' & -> & Hz1 & Hz2). exists (z' :: zs). split; [reflexivity|]. constructor; [split; assumption|exact HZ].
Qed.

(** ** COO *)
Section Coo.
  Context {W : Type}.
  Variables (L O : ity) (wm : option (wmode W)).
  Hypothesis HL : is_ity L.
  Hypothesis HO : is_ity O.

  Lemma coo_head_len n nr nc m : length (coo_head L O n nr nc m) = 13 + 3 * isize L + isize O.
  Proof using. unfold coo_head, enc. rewrite !app_length, !enc_len. cbn [cint cd_size length coo_magic]. change (isize u8) with 1. lia. Qed.

  Lemma coo_open_head fl pg fn ft ch s n nr nc m r : teams ch -> 1 <= pg -> ft = AUTO \/ ft = PIGO_COO_BIN ->
    match wbin wm with None => True | Some cd => 0 < cd_size cd end ->
    s = coo_head L O n nr nc (Z.of_nat m) ++ r ->
    inrange L n = true -> inrange L nr = true -> inrange L nc = true -> inrange O (Z.of_nat m) = true ->
    let px := 13 + 3 * isize L + isize O in
    px + 2 * (isize L * m) + weight_size (wbin wm) m <= length s ->
    coo_open L O wm fl pg fn (Some s) ft ch =
      Ok (mkCoo (array_at (cint L) m px s) (array_at (cint L) m (px + isize L * m) s)
            (match wbin wm with None => [] | Some c => array_at c m (px + 2 * (isize L * m)) s end) (Some n) (Some nr) (Some nc) (Z.of_nat m)).
  Proof using HL HO.
    intros (U1 & U2 & U3) Hpg Hft HZ Es Hn Hr Hc Hm px Hlen.
    unfold coo_open. rewrite open_reading by (rewrite Es; discriminate). cbn [bind]. unfold coo_read.
    rewrite (guess_begins_ft ft _ PIGO_COO_BIN Hft); [|discriminate|].
    2:{ eapply (guess_coo s pg fn [] s); [reflexivity|]. rewrite Es. apply begins_app. unfold coo_head. eexists _, _. reflexivity. }
    cbn [bind]. rewrite (coo_head_ok L O (wbin wm) HL HO n nr nc (Z.of_nat m) s pg fn [] r) by assumption.
    unfold reading. cbn [app]. rewrite coo_head_len. fold px.
    rewrite (coo_tail_cut L (wbin wm) n nr nc m s 0) by (auto using whole_room; lia). rewrite app_zeros. reflexivity.
  Qed.
End Coo.

(** ** CSR, at any position of a file *)
Lemma csr_head_len L O n nr nc m : length (csr_head L O n nr nc m) = 13 + 3 * isize L + isize O.
Proof. unfold csr_head, enc. rewrite !app_length, !enc_len. cbn [cint cd_size length csr_magic]. change (isize u8) with 1. lia. Qed.

Lemma csr_read_head {W} L O (wc : option (codec W)) pg fn (s : list byte) pre n nr nc m r t_o te tw : is_ity L -> is_ity O ->
  1 <= fst t_o -> 1 <= fst te -> 1 <= fst tw -> 1 <= pg ->
  match wc with None => True | Some cd => 0 < cd_size cd end ->
  s = pre ++ csr_head L O n nr nc (Z.of_nat m) ++ r ->
  inrange L n = true -> inrange L nr = true -> inrange L nc = true -> inrange O (Z.of_nat m) = true -> (0 <= n)%Z -> room L n ->
  let po := length pre + 13 + 3 * isize L + isize O in
  let n1 := Z.to_nat (n + 1) in
  po + isize O * n1 + isize L * m + weight_size wc m <= length s ->
  csr_read_bin L O O wc (reading s pg fn pre) t_o te tw =
    Ok (mkCsr (array_at (cint O) n1 po s) (array_at (cint L) m (po + isize O * n1) s)
          (match wc with None => [] | Some c => array_at c m (po + isize O * n1 + isize L * m) s end) n (Z.of_nat m) (Some nr) (Some nc),
        mkRfile (mkMem s pg) (po + isize O * n1 + isize L * m + weight_size wc m) fn).
Proof.
  intros HL HO U1 U2 U3 Hpg HZ Es Hn Hr Hc Hm H0 HR po n1 Hlen.
  rewrite (csr_head_ok L O wc HL HO O n nr nc (Z.of_nat m) s pg fn pre r) by assumption.
  unfold reading. rewrite app_length, csr_head_len. replace (length pre + (13 + 3 * isize L + isize O)) with po by (unfold po; lia).
  rewrite (csr_tail_cut L O wc n nr nc m s 0) by (auto using whole_room; fold n1; lia). rewrite app_zeros. fold n1. reflexivity.
Qed.

Lemma csr_open_head {W} L O (wm : option (wmode W)) pg fn ft ch s n nr nc m r : is_ity L -> is_ity O -> teams ch -> 1 <= pg -> ft = AUTO \/ ft = PIGO_CSR_BIN ->
  match wbin wm with None => True | Some cd => 0 < cd_size cd end ->
  s = csr_head L O n nr nc (Z.of_nat m) ++ r ->
  inrange L n = true -> inrange L nr = true -> inrange L nc = true -> inrange O (Z.of_nat m) = true -> (0 <= n)%Z -> room L n ->
  let po := 13 + 3 * isize L + isize O in
  let n1 := Z.to_nat (n + 1) in
  po + isize O * n1 + isize L * m + weight_size (wbin wm) m <= length s ->
  csr_open L O wm pg fn (Some s) ft ch =
    Ok (mkCsr (array_at (cint O) n1 po s) (array_at (cint L) m (po + isize O * n1) s)
          (match wbin wm with None => [] | Some c => array_at c m (po + isize O * n1 + isize L * m) s end) n (Z.of_nat m) (Some nr) (Some nc)).
Proof.
  intros HL HO (U1 & U2 & U3) Hpg Hft HZ Es Hn Hr Hc Hm H0 HR po n1 Hlen.
  unfold csr_open. rewrite open_reading by (rewrite Es; discriminate). cbn [bind]. unfold csr_read.
  rewrite (guess_begins_ft ft _ PIGO_CSR_BIN Hft); [|discriminate|].
  2:{ eapply (guess_csr s pg fn [] s); [reflexivity|]. rewrite Es. apply begins_app. unfold csr_head. eexists _, _. reflexivity. }
  cbn [bind]. unfold csr_direct. rewrite (csr_read_head L O (wbin wm) pg fn s [] n nr nc m r) by assumption. reflexivity.
Qed.

(** ** Tensor *)
Lemma wbyte_len {W} (wc : option (codec W)) : length (wbyte wc) = match wc with None => 0 | Some _ => 1 end.
Proof. unfold wbyte, enc. destruct wc; [rewrite enc_len|]; reflexivity. Qed.

Lemma tensor_head_len {W} L O (wc : option (codec W)) od m : length (tensor_head L O wc od m) = 15 + (match wc with None => 0 | Some _ => 1 end) + 2 * isize O.
Proof. unfold tensor_head, enc. rewrite !app_length, !enc_len, wbyte_len. cbn [cint cd_size length tensor_magic]. change (isize u8) with 1. lia. Qed.

Lemma tensor_open_head {W} L O (wm : option (wmode W)) pg fn ft ch s od m r : is_ity L -> is_ity O -> teams ch -> 1 <= pg -> ft = AUTO \/ ft = PIGO_TENSOR_BIN ->
  match wbin wm with None => True | Some cd => 0 < cd_size cd < 256 end ->
  s = tensor_head L O (wbin wm) (Z.of_nat od) (Z.of_nat m) ++ r ->
  inrange O (Z.of_nat od) = true -> inrange O (Z.of_nat m) = true -> (Z.of_nat od * Z.of_nat m <= imax O)%Z ->
  let pc := 15 + (match wbin wm with None => 0 | Some _ => 1 end) + 2 * isize O in
  pc + isize L * (od * m) + weight_size (wbin wm) m <= length s ->
  tensor_open L O wm pg fn (Some s) ft ch =
    Ok (mkTensor (array_at (cint L) (od * m) pc s)
          (match wbin wm with None => [] | Some c => array_at c m (pc + isize L * (od * m)) s end) (Z.of_nat od) (Z.of_nat m)).
Proof.
  intros HL HO (U1 & U2 & U3) Hpg Hft HZ Es Ho Hm HR pc Hlen.
  assert (HZ1 : match wbin wm with None => True | Some cd => 0 < cd_size cd end) by (destruct (wbin wm); [lia|exact I]).
  assert (HZ2 : match wbin wm with None => True | Some cd => cd_size cd < 256 end) by (destruct (wbin wm); [lia|exact I]).
  unfold tensor_open. rewrite open_reading by (rewrite Es; discriminate). cbn [bind]. unfold tensor_read.
  rewrite (guess_begins_ft ft _ PIGO_TENSOR_BIN Hft); [|discriminate|].
  2:{ eapply (guess_tensor s pg fn [] s); [reflexivity|]. rewrite Es. apply begins_app. unfold tensor_head. eexists _, _. reflexivity. }
  cbn [bind]. rewrite (tensor_head_ok L O (wbin wm) HL HO (Z.of_nat od) (Z.of_nat m) s pg fn [] r) by assumption.
  unfold reading. cbn [app]. rewrite tensor_head_len. fold pc.
  rewrite (tensor_tail_cut L O (wbin wm) od m s 0) by (auto using whole_room; lia). rewrite app_zeros. reflexivity.
Qed.

(** ** Magic strings that are stored in part *)
Lemma no_magic (s magic : list byte) k : nth_error s k = Some 0%Z -> k < length magic -> Forall (fun x => x <> 0%Z) magic -> ~ begins s magic.
Proof.
  intros Hs Hk HF HB. pose proof (begins_nth s magic k HB Hk) as E. rewrite Hs in E. symmetry in E. apply nth_error_In in E.
  rewrite Forall_forall in HF. exact (HF _ E eq_refl).
Qed.

Lemma guess_throws s pg fn : begins s pigo_magic -> ~ begins s coo_magic -> ~ begins s csr_magic -> ~ begins s digraph_magic -> ~ begins s tensor_magic ->
  guess (reading s pg fn []) = Throw EError.
Proof.
  intros H0 H1 H2 H3 H4. rewrite (guess_at s pg fn [] s eq_refl). apply begins_dec in H0. apply begins_false in H1, H2, H3, H4.
  rewrite H1, H2, H3, H4, H0. reflexivity.
Qed.

(** A file whose magic string [magic] has been stored up to byte [k]. *)
Lemma partial_magic (s magic : list byte) k pg fn : In magic [coo_magic; csr_magic; digraph_magic; tensor_magic] ->
  4 <= k -> k < length magic -> firstn k s = firstn k magic -> nth_error s k = Some 0%Z ->
  guess (reading s pg fn []) = Throw EError /\ ~ begins s magic.
Proof.
  intros HM H4 Hk Hf H0.
  assert (Hn : forall i, i < k -> nth_error s i = nth_error magic i).
  { intros i Hi. pose proof (nth_window s k 0 i Hi) as E1. pose proof (nth_window magic k 0 i Hi) as E2. cbn [skipn plus] in E1, E2. rewrite <- E1, <- E2, Hf. reflexivity. }
  assert (HF : forall mg, In mg [coo_magic; csr_magic; digraph_magic; tensor_magic] -> Forall (fun x => x <> 0%Z) mg).
  { intros mg H. repeat (destruct H as [<-|H]; [repeat constructor; discriminate|]). destruct H. }
  assert (HP : begins s pigo_magic).
  { assert (E : firstn 4 s = pigo_magic).
    { replace (firstn 4 s) with (firstn 4 (firstn k s)) by (rewrite firstn_firstn; f_equal; lia). rewrite Hf, firstn_firstn. replace (Nat.min 4 k) with 4 by lia.
      repeat (destruct HM as [<-|HM]; [reflexivity|]). destruct HM. }
    assert (Hl : k < length s) by (apply nth_error_Some; congruence).
    rewrite <- (firstn_skipn 4 s), E. destruct (skipn 4 s) as [|x r] eqn:Er; [apply (f_equal (@List.length _)) in Er; rewrite skipn_length in Er; cbn in Er; lia|].
    exists x, r. reflexivity. }
  assert (HB : forall mg, In mg [coo_magic; csr_magic; digraph_magic; tensor_magic] -> ~ begins s mg).
  { intros mg Hmg HB. destruct (Nat.lt_ge_cases k (length mg)) as [Hl|Hl]; [exact (no_magic s mg k H0 Hl (HF mg Hmg) HB)|].
    assert (Hlen : 11 <= length mg) by (repeat (destruct Hmg as [<-|Hmg]; [cbn; lia|]); destruct Hmg).
    pose proof (begins_nth s mg 5 HB ltac:(lia)) as E5. rewrite Hn in E5 by lia. pose proof (begins_nth s mg 6 HB ltac:(lia)) as E6. rewrite Hn in E6 by lia.
    assert (NE : magic <> mg) by (intros ->; lia).
    repeat (destruct HM as [<-|HM]; [|]); try (destruct HM); repeat (destruct Hmg as [<-|Hmg]; [|]); try (destruct Hmg);
      try (cbn in E5; discriminate); try (cbn in E6; discriminate); try (apply NE; reflexivity). }
  split; [|exact (HB magic HM)]. apply guess_throws; [exact HP|apply HB; cbn; tauto..].
Qed.
