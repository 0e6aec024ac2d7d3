(** * P_CutHead: C47, a binary COO file cut inside its header *)

From Coq Require Import String.
From Verif Require Import Base Reader Sched SchedLemmas CooExec Coo Ascii Csr SpecCsr CsrLemmas Codec Bin SpecBin BinLemmas BinSave BinLoad Graph Load Tensor BinOpen BinBad SpecReweigh Reweigh SpecCut Cut P_Bin P_BinBad P_BinEx CrashRead.
Notation length := List.length.
Open Scope list_scope.

Lemma load_n_pad s pg z n : 1 <= pg -> length s + z <= paged pg (length s) -> forall d,
  load_n (mkMem s pg) n d = load_n (mkMem (s ++ repeat 0%Z z) pg) n d.
Proof.
  intros Hp Hz. induction n as [|n IH]; intros d; [reflexivity|]. cbn [load_n]. rewrite (load_pad s pg z d Hp Hz), IH. reflexivity.
Qed.

Lemma rd_cut {V} (c : codec V) s pg fn z fp : 1 <= pg -> length s + z <= paged pg (length s) -> fp + cd_size c <= length s + z ->
  rd c (mkRfile (mkMem s pg) fp fn) = Ok (cd_dec c (firstn (cd_size c) (skipn fp (s ++ repeat 0%Z z))), mkRfile (mkMem s pg) (fp + cd_size c) fn).
Proof.
  intros Hp Hz Hn. unfold rd. cbn [rf_mem rf_fp rf_name]. rewrite (load_n_pad s pg z) by assumption.
  set (s' := s ++ repeat 0%Z z). assert (Ls : length s' = length s + z) by (unfold s'; rewrite app_length, repeat_length; reflexivity).
  set (b := firstn (cd_size c) (skipn fp s')). assert (Lb : length b = cd_size c) by (unfold b; rewrite firstn_length, skipn_length; lia).
  assert (Lp : length (firstn fp s') = fp) by (rewrite firstn_length; lia).
  assert (E' : s' = firstn fp s' ++ b ++ skipn (cd_size c) (skipn fp s')) by (unfold b; rewrite firstn_skipn, firstn_skipn; reflexivity).
  pose proof (load_n_app s' pg b _ _ E') as H. rewrite Lb, Lp in H. rewrite H. reflexivity.
Qed.

Lemma field_cut (b f rest : list byte) k z fp : skipn fp b = f ++ rest -> k <= length b -> fp + length f <= k + z ->
  firstn (length f) (skipn fp (firstn k b ++ repeat 0%Z z)) = firstn (k - fp) f ++ repeat 0%Z (length f - (k - fp)).
Proof.
  intros E Hk Hz. rewrite skipn_app, firstn_length, Nat.min_l by exact Hk.
  destruct (Nat.le_gt_cases k fp) as [H|H].
  - rewrite (skipn_all2 (firstn k b)) by (rewrite firstn_length; lia). replace (k - fp) with 0 by lia. cbn [app firstn]. rewrite Nat.sub_0_r.
    replace z with ((fp - k) + (z - (fp - k))) by lia. rewrite repeat_app, skipn_app, skipn_all2 by (rewrite repeat_length; lia).
    rewrite repeat_length, Nat.sub_diag. cbn [app skipn]. rewrite firstn_repeat. f_equal. lia.
  - rewrite skipn_firstn_comm, E. replace (fp - k) with 0 by lia. cbn [skipn].
    destruct (Nat.le_gt_cases (length f) (k - fp)) as [H1|H1].
    + rewrite (firstn_app (k - fp) f rest), (firstn_all2 f) by lia. rewrite <- app_assoc, firstn_exact by reflexivity.
      replace (length f - (k - fp)) with 0 by lia. cbn [repeat]. rewrite app_nil_r. reflexivity.
    + rewrite (firstn_app (k - fp) f rest). replace (k - fp - length f) with 0 by lia. cbn [firstn]. rewrite app_nil_r.
      rewrite firstn_app, (firstn_all2 (firstn (k - fp) f)) by (rewrite firstn_length; lia). rewrite firstn_length, Nat.min_l by lia.
      rewrite firstn_repeat. do 2 f_equal. lia.
Qed.

Lemma unle_app_zeros a r : unle (a ++ repeat 0%Z r) = unle a.
Proof. unfold unle. rewrite fold_right_app. fold (unle (repeat 0%Z r)). rewrite unle_zeros. reflexivity. Qed.

Lemma firstn_le j : forall n v, firstn j (le n v) = le (Nat.min j n) v.
Proof. induction j as [|j IH]; intros [|n] v; cbn; [reflexivity|reflexivity|reflexivity|rewrite IH; reflexivity]. Qed.

(** The first [j] bytes of a number that is not negative. *)
Lemma dec_field t v j : is_ity t -> inrange t v = true -> (0 <= v)%Z ->
  cd_dec (cint t) (firstn j (le (isize t) v) ++ repeat 0%Z (isize t - j)) = (v mod 256 ^ Z.of_nat j)%Z.
Proof.
  intros Ht Hv H0. cbn [cint cd_dec]. rewrite unle_app_zeros, firstn_le, unle_le.
  assert (Hp : (0 < 256 ^ Z.of_nat j)%Z) by (apply Z.pow_pos_nonneg; lia).
  assert (E : (v mod 256 ^ Z.of_nat (Nat.min j (isize t)) = v mod 256 ^ Z.of_nat j)%Z).
  { destruct (Nat.le_gt_cases j (isize t)) as [H|H]; [rewrite Nat.min_l by exact H; reflexivity|]. rewrite Nat.min_r by lia.
    assert (Hlt : (v < 256 ^ Z.of_nat (isize t))%Z).
    { rewrite isize_pow by exact Ht. unfold inrange in Hv. apply andb_prop in Hv as [_ Hv]. apply Z.leb_le in Hv.
      eapply Z.le_lt_trans; [exact Hv|]. clear - Ht. unfold is_ity in Ht. cbn [In] in Ht. repeat (destruct Ht as [<-|Ht]; [vm_compute; reflexivity|]). destruct Ht. }
    rewrite !Z.mod_small; [reflexivity| |lia]. split; [exact H0|]. eapply Z.lt_le_trans; [exact Hlt|]. apply Z.pow_le_mono_r; lia. }
  rewrite E. set (w := (v mod 256 ^ Z.of_nat j)%Z).
  assert (Hw : (0 <= w <= v)%Z) by (unfold w; split; [apply Z.mod_pos_bound; exact Hp|apply Z.mod_le; assumption]).
  assert (Hin : inrange t w = true).
  { unfold inrange in *. apply andb_prop in Hv as [V1 V2]. apply Z.leb_le in V1, V2. apply andb_true_intro. split; apply Z.leb_le; [|lia].
    unfold imin. destruct (isigned t); [|lia]. assert (0 <= 2 ^ (ibits t - 1))%Z by (apply Z.pow_nonneg; lia). lia. }
  rewrite <- (wrap_mod t w Ht Hin) at 2. f_equal. symmetry. apply Z.mod_small. split; [lia|].
  unfold inrange in Hin. apply andb_prop in Hin as [_ Hm]. apply Z.leb_le in Hm. eapply Z.le_lt_trans; [exact Hm|].
  clear - Ht. unfold is_ity in Ht. cbn [In] in Ht. repeat (destruct Ht as [<-|Ht]; [vm_compute; reflexivity|]). destruct Ht.
Qed.

Lemma values_zeros {V} (c : codec V) n : forall r, cd_size c * n <= r -> values c n (repeat 0%Z r) = repeat (cd_dec c (repeat 0%Z (cd_size c))) n.
Proof.
  induction n as [|n IH]; intros r Hr; [reflexivity|]. cbn [values repeat]. rewrite firstn_repeat. f_equal; [do 2 f_equal; nia|].
  replace r with (cd_size c + (r - cd_size c)) by nia. rewrite repeat_app, skipn_app, skipn_all2 by (rewrite repeat_length; lia).
  rewrite repeat_length, Nat.sub_diag. cbn [app skipn]. apply IH. nia.
Qed.

Lemma page_room pg n : 1 <= pg -> 1 <= n -> pg <= paged pg n.
Proof.
  intros Hp Hn. unfold paged. assert (1 <= (n + (pg - 1)) / pg) by (apply Nat.div_le_lower_bound; lia). nia.
Qed.

Lemma begins_len s magic : begins s magic -> length magic < length s.
Proof. intros (b & r & ->). rewrite app_length. cbn [length]. lia. Qed.

(** ** The theorems

    At most 12 bytes are left: an error, also when the type is detected, unless
    not even five bytes are left (the file is then taken for a text file). *)
Theorem C47_short_coo : forall {W} L O (wm : option (wmode W)) fl (c : coo W) pg fn ft ch b k,
  is_ity L -> is_ity O -> fit L (co_n c) -> fit L (co_nrows c) -> fit L (co_ncols c) -> 13 <= pg ->
  ft = PIGO_COO_BIN \/ (ft = AUTO /\ 5 <= k) ->
  coo_layout L O (wbin wm) c = map Some b -> k <= 12 ->
  coo_open L O wm fl pg fn (Some (firstn k b)) ft ch = Throw EError.
Proof.
  intros W L O wm fl c pg fn ft ch b k HL HO (n & En & Hn) (nr & Er & Hr) (nc & Ec & Hcc) Hpg Hft Eb Hk.
  destruct (coo_split L O (wbin wm) c n nr nc b HL HO En Er Ec Eb) as (r & Es & _).
  destruct (Nat.eq_dec k 0) as [->|Hk0]; [reflexivity|].
  assert (Em : exists q, b = coo_magic ++ q) by (rewrite Es; unfold coo_head; rewrite <- app_assoc; eexists; reflexivity).
  destruct Em as (q & Eq).
  assert (Lb : 13 <= length b).
  { rewrite Es. unfold coo_head, enc. rewrite !app_length, !enc_len. cbn [cint cd_size length coo_magic]. change (isize u8) with 1. lia. }
  set (s := firstn k b). assert (Ls : length s = k) by (unfold s; rewrite firstn_length; lia).
  assert (Hs : s <> []) by (intros E; rewrite E in Ls; cbn in Ls; lia).
  unfold coo_open. rewrite open_reading by exact Hs. cbn [bind]. unfold coo_read.
  destruct (Nat.le_gt_cases k 11) as [H11|H11].
  - assert (NB : forall mg, 11 <= length mg -> ~ begins s mg) by (intros mg Hm Hb; apply begins_len in Hb; lia).
    destruct Hft as [->|[-> H5]].
    + cbn [used bind]. unfold coo_read_bin. rewrite (rd_str_no s pg fn [] s coo_magic eq_refl) by (apply NB; cbn; lia). reflexivity.
    + cbn [used]. rewrite guess_throws; [reflexivity| | | | |]; try (apply NB; cbn; lia).
      assert (E5 : exists x t, s = pigo_magic ++ x :: t).
      { assert (E : s = firstn k coo_magic) by (unfold s; rewrite Eq, firstn_app; replace (k - length coo_magic) with 0 by (cbn; lia); cbn [firstn]; apply app_nil_r).
        rewrite E. clear - H5. do 5 (destruct k as [|k]; [lia|]). cbn. eexists _, _. reflexivity. }
      exact E5.
  - assert (Hk12 : k = 12) by lia. 
    assert (Hb : begins s coo_magic).
    { unfold s. rewrite Hk12, Eq, firstn_app. cbn [length coo_magic]. change (12 - 11) with 1. destruct q as [|x q]; [apply (f_equal (@length byte)) in Eq; cbn in Eq; lia|].
      exists x, []. reflexivity. }
    rewrite (guess_begins_ft ft _ PIGO_COO_BIN); [|destruct Hft as [H|[H _]]; auto|discriminate|apply (guess_coo s pg fn [] s eq_refl Hb)].
    cbn [bind]. unfold coo_read_bin. destruct Hb as (x & t & Et).
    rewrite (rd_str_ok s pg fn [] coo_magic (x :: t) Et) by discriminate. cbn [bind]. unfold reading. cbn [length app].
    assert (Hroom : length s + 1 <= paged pg (length s)) by (pose proof (page_room pg (length s)); lia).
    rewrite (rd_cut (cint u8) s pg fn 1) by (cbn [cint cd_size length coo_magic]; change (isize u8) with 1; lia). cbn [bind].
    rewrite (rd_cut (cint u8) s pg fn 1) by (cbn [cint cd_size length coo_magic]; change (isize u8) with 1; lia). cbn [bind].
    cbn [cint cd_size length coo_magic]. change (isize u8) with 1. change (11 + 1) with 12.
    destruct (negb (_ =? size_byte L)%Z); [reflexivity|].
    rewrite (skipn_exact s (repeat 0%Z 1) 12) by lia. cbn [firstn repeat].
    assert (HZ : (0 =? size_byte O)%Z = false).
    { clear - HO. unfold is_ity in HO. cbn [In] in HO. repeat (destruct HO as [<-|HO]; [reflexivity|]). destruct HO. }
    change (cd_dec (cint u8) [0%Z]) with 0%Z. rewrite HZ. reflexivity.
Qed.
Print Assumptions C47_short_coo.

Lemma repeat_map {A B} (f : A -> B) a n : map f (repeat a n) = repeat (f a) n.
Proof. induction n as [|n IH]; [reflexivity|]. cbn [repeat map]. rewrite IH. reflexivity. Qed.

Lemma rd_field t v pre rest b k z pg fn fp : is_ity t -> inrange t v = true -> (0 <= v)%Z ->
  b = pre ++ le (isize t) v ++ rest -> fp = length pre -> k <= length b -> 1 <= pg -> k + z <= paged pg k -> fp + isize t <= k + z ->
  rd (cint t) (mkRfile (mkMem (firstn k b) pg) fp fn) =
    Ok ((v mod 256 ^ Z.of_nat (k - fp))%Z, mkRfile (mkMem (firstn k b) pg) (fp + isize t) fn).
Proof.
  intros Ht Hv H0 E -> Hk Hp Hz Hn. assert (Ls : length (firstn k b) = k) by (rewrite firstn_length; lia).
  rewrite (rd_cut (cint t) _ pg fn z) by (rewrite ?Ls; cbn [cint cd_size]; assumption). cbn [cint cd_size].
  assert (Es : skipn (length pre) b = le (isize t) v ++ rest) by (rewrite E; apply skipn_exact; reflexivity).
  pose proof (field_cut b (le (isize t) v) rest k z (length pre) Es Hk) as HF. rewrite le_length in HF. rewrite HF by exact Hn.
  pose proof (dec_field t v (k - length pre) Ht Hv H0) as HD. cbn [cint cd_dec cd_size] in HD |- *. rewrite HD. reflexivity.
Qed.

Lemma small_mod t v j : is_ity t -> inrange t v = true -> (0 <= v)%Z -> isize t <= j -> (v mod 256 ^ Z.of_nat j = v)%Z.
Proof.
  intros Ht Hv H0 Hj. apply Z.mod_small. split; [exact H0|].
  unfold inrange in Hv. apply andb_prop in Hv as [_ Hv]. apply Z.leb_le in Hv.
  apply Z.lt_le_trans with (256 ^ Z.of_nat (isize t))%Z; [|apply Z.pow_le_mono_r; lia]. rewrite isize_pow by exact Ht.
  eapply Z.le_lt_trans; [exact Hv|]. clear - Ht. unfold is_ity in Ht. cbn [In] in Ht. repeat (destruct Ht as [<-|Ht]; [vm_compute; reflexivity|]). destruct Ht.
Qed.

(** At least 13 bytes are left, but not the whole header.  The numbers of the
    header lose their upper bytes, and the number of entries is what remains of
    it: none at all if not even its first byte is left.  If the arrays of that
    many entries lie in the last page, the load succeeds and all entries are
    zero; otherwise memory outside the mapping is accessed. *)
Theorem C47_header_coo : forall {W} L O (wm : option (wmode W)) fl c n nr nc pg fn ft ch b k,
  is_ity L -> is_ity O -> co_n c = Some n -> co_nrows c = Some nr -> co_ncols c = Some nc ->
  (inrange L n = true /\ inrange L nr = true /\ inrange L nc = true /\ inrange O (co_m c) = true) ->
  (0 <= n /\ 0 <= nr /\ 0 <= nc /\ 0 <= co_m c)%Z ->
  match wm with None => True | Some m => 0 < cd_size (wm_bin m) end ->
  teams ch -> 13 + 3 * isize L + isize O <= pg -> ft = AUTO \/ ft = PIGO_COO_BIN ->
  coo_layout L O (wbin wm) c = map Some b -> 13 <= k -> k < 13 + 3 * isize L + isize O ->
  let left fp := Z.of_nat (k - fp) in
  let m' := (co_m c mod 256 ^ left (13 + 3 * isize L)%nat)%Z in
  let size := 13 + 3 * isize L + isize O + (2 * isize L + match wm with None => 0 | Some m => cd_size (wm_bin m) end) * Z.to_nat m' in
  (size <= map_len (mkMem (firstn k b) pg) ->
   coo_open L O wm fl pg fn (Some (firstn k b)) ft ch =
     Ok (mkCoo (repeat (Some 0%Z) (Z.to_nat m')) (repeat (Some 0%Z) (Z.to_nat m'))
           (match wm with None => [] | Some m => repeat (Some (cd_dec (wm_bin m) (repeat 0%Z (cd_size (wm_bin m))))) (Z.to_nat m') end)
           (Some (n mod 256 ^ left (13 + 2 * isize L)%nat)%Z) (Some (nr mod 256 ^ left 13%nat)%Z) (Some (nc mod 256 ^ left (13 + isize L)%nat)%Z) m')) /\
  (map_len (mkMem (firstn k b) pg) < size -> coo_open L O wm fl pg fn (Some (firstn k b)) ft ch = UB).
Proof.
  intros W L O wm fl c n nr nc pg fn ft ch b k HL HO En Er Ec (Rn & Rr & Rc & Rm) (N1 & N2 & N3 & N4) Hcd (U1 & U2 & U3) Hpg Hft Eb Hk Hkp left m' size.
  destruct (coo_split L O (wbin wm) c n nr nc b HL HO En Er Ec Eb) as (r & Es & _).
  unfold coo_head, enc in Es. cbn [cint cd_enc] in Es.
  assert (Lb : length b = 13 + 3 * isize L + isize O + length r).
  { rewrite Es, !app_length, !le_length. cbn [length coo_magic]. change (isize u8) with 1. lia. }
  set (s := firstn k b). assert (Ls : length s = k) by (unfold s; rewrite firstn_length; lia).
  pose proof (page_room pg k ltac:(lia) ltac:(lia)) as HP.
  set (M := map_len (mkMem s pg)). assert (EM : M = paged pg k) by (unfold M, map_len, flen, paged; cbn [bytes page]; rewrite Ls; reflexivity).
  set (z := M - k). assert (Hz : k + z <= paged pg k) by lia.
  assert (Hz2 : k + z = M) by lia.
  assert (Hb : begins s coo_magic).
  { unfold s. rewrite Es, <- !app_assoc. rewrite firstn_app, (firstn_all2 coo_magic) by (cbn; lia).
    destruct (k - length coo_magic) as [|j] eqn:Ej; [cbn in Ej; lia|]. change (isize u8) with 1. cbn [le app firstn]. eexists _, _. reflexivity. }
  assert (B8 : forall t, is_ity t -> inrange u8 (size_byte t) = true /\ (0 <= size_byte t)%Z).
  { intros t Ht. unfold is_ity in Ht. cbn [In] in Ht. repeat (destruct Ht as [<-|Ht]; [vm_compute; split; [reflexivity|discriminate]|]). destruct Ht. }
  destruct (B8 L HL) as [BL1 BL2]. destruct (B8 O HO) as [BO1 BO2].
  assert (H8 : is_ity u8) by (cbn; tauto).
  assert (EO : coo_open L O wm fl pg fn (Some s) ft ch =
    ('(x, _) <- coo_tail L (wbin wm) (n mod 256 ^ left (13 + 2 * isize L)%nat) (nr mod 256 ^ left 13%nat) (nc mod 256 ^ left (13 + isize L)%nat) m'
       (mkRfile (mkMem s pg) (13 + 3 * isize L + isize O) fn) (lc_b1 ch) (lc_b2 ch) (lc_b3 ch) ;; Ok x)).
  { unfold coo_open. rewrite open_reading by (intros E; rewrite E in Ls; cbn in Ls; lia). cbn [bind]. unfold coo_read.
    rewrite (guess_begins_ft ft _ PIGO_COO_BIN Hft); [|discriminate|apply (guess_coo s pg fn [] s eq_refl Hb)].
    cbn [bind]. unfold coo_read_bin. destruct Hb as (x & t & Et).
    rewrite (rd_str_ok s pg fn [] coo_magic (x :: t) Et) by discriminate. cbn [bind]. unfold reading. cbn [app].
    rewrite <- !app_assoc in Es. unfold s in *.
    assert (E1 := Es).
    rewrite (rd_field u8 _ _ _ b k z pg fn (length coo_magic) H8 BL1 BL2 E1) by (reflexivity || (cbn [length coo_magic]; change (isize u8) with 1; lia)). cbn [bind].
    rewrite (app_assoc coo_magic) in E1.
    rewrite (rd_field u8 _ _ _ b k z pg fn (length coo_magic + isize u8) H8 BO1 BO2 E1) by ((rewrite app_length, le_length; reflexivity) || (cbn [length coo_magic]; change (isize u8) with 1; lia)). cbn [bind].
    rewrite (small_mod u8 (size_byte L)) by (auto; cbn; lia). rewrite (small_mod u8 (size_byte O)) by (auto; cbn; lia). rewrite !Z.eqb_refl. cbn [negb].
    change (length coo_magic + isize u8 + isize u8) with 13.
    rewrite app_assoc in E1.
    rewrite (rd_field L _ _ _ b k z pg fn 13 HL Rr N2 E1) by ((rewrite !app_length, !le_length; reflexivity) || lia). cbn [bind].
    rewrite app_assoc in E1.
    rewrite (rd_field L _ _ _ b k z pg fn (13 + isize L) HL Rc N3 E1) by ((rewrite !app_length, !le_length; reflexivity) || lia). cbn [bind].
    rewrite app_assoc in E1. replace (13 + isize L + isize L) with (13 + 2 * isize L) by lia.
    rewrite (rd_field L _ _ _ b k z pg fn (13 + 2 * isize L) HL Rn N1 E1) by ((rewrite !app_length, !le_length; cbn [length coo_magic]; change (isize u8) with 1; lia) || lia). cbn [bind].
    rewrite app_assoc in E1. replace (13 + 2 * isize L + isize L) with (13 + 3 * isize L) by lia.
    rewrite (rd_field O _ _ _ b k z pg fn (13 + 3 * isize L) HO Rm N4 E1) by ((rewrite !app_length, !le_length; cbn [length coo_magic]; change (isize u8) with 1; lia) || lia). cbn [bind].
    reflexivity. }
  assert (Hm0 : (0 <= m')%Z) by (unfold m', left; apply Z.mod_pos_bound, Z.pow_pos_nonneg; lia).
  set (mm := Z.to_nat m') in *. assert (Em : m' = Z.of_nat mm) by (unfold mm; lia).
  assert (Ew : size = 13 + 3 * isize L + isize O + 2 * (isize L * mm) + weight_size (wbin wm) mm).
  { unfold size. destruct wm as [w|]; cbn [wbin option_map weight_size]; lia. }
  assert (Hcw : match wbin wm with None => True | Some cd => 0 < cd_size cd end) by (destruct wm; exact Hcd).
  split; intros HS; rewrite EO.
  - rewrite Em. rewrite (coo_tail_cut L (wbin wm) _ _ _ mm s z pg fn) by (auto; rewrite ?Ls; lia). cbn [bind].
    assert (HA : forall {V} (cd : codec V) p, 13 + 3 * isize L + isize O <= p -> p + cd_size cd * mm <= k + z ->
      array_at cd mm p (s ++ repeat 0%Z z) = repeat (Some (cd_dec cd (repeat 0%Z (cd_size cd)))) mm).
    { intros V cd p Hp1 Hp2. unfold array_at. rewrite skipn_app, skipn_all2 by lia. cbn [app]. rewrite Ls.
      replace z with ((p - k) + (z - (p - k))) by lia. rewrite repeat_app, skipn_app, skipn_all2 by (rewrite repeat_length; lia).
      rewrite repeat_length, Nat.sub_diag. cbn [app skipn]. rewrite values_zeros by lia. apply repeat_map. }
    assert (HZ : cd_dec (cint L) (repeat 0%Z (isize L)) = 0%Z).
    { clear - HL. unfold is_ity in HL. cbn [In] in HL. repeat (destruct HL as [<-|HL]; [vm_compute; reflexivity|]). destruct HL. }
    rewrite (HA _ (cint L)) by (cbn [cint cd_size]; lia). rewrite (HA _ (cint L)) by (cbn [cint cd_size]; lia). cbn [cint cd_size] in HZ |- *. rewrite HZ.
    destruct wm as [w|]; cbn [wbin option_map weight_size] in *; [|reflexivity]. rewrite HA by lia. reflexivity.
  - unfold coo_tail, coo_alloc. destruct (Z.ltb_spec m' 0); [lia|]. cbn [bind cx cy cw]. fold mm.
    match goal with |- context [rd_array (cint L) ?l ?v (lc_b1 ch) ?f] =>
      destruct (rd_array_cases (cint L) l v (lc_b1 ch) f) as [->|(x & -> & HA1)] end;
      [assumption|cbn [rf_mem page]; lia|cbn [rf_mem rf_fp]; fold M; lia|reflexivity|].
    cbn [bind]. cbn [rf_mem rf_fp rf_name] in *. fold M in HA1.
    match goal with |- context [rd_array (cint L) ?l ?v (lc_b2 ch) ?f] =>
      destruct (rd_array_cases (cint L) l v (lc_b2 ch) f) as [->|(y & -> & HA2)] end;
      [assumption|cbn [rf_mem page]; lia|cbn [rf_mem rf_fp]; fold M; lia|reflexivity|].
    cbn [bind]. cbn [rf_mem rf_fp rf_name] in *. fold M in HA2.
    match goal with |- context [get_weights (wbin wm) ?l mm (lc_b3 ch) ?f] =>
      destruct (get_weights_cases (wbin wm) l mm (lc_b3 ch) f) as [->|(w & -> & HA3)] end;
      [assumption|cbn [rf_mem page]; lia|cbn [rf_mem rf_fp]; fold M; lia|reflexivity|].
    cbn [rf_mem rf_fp rf_name] in *. fold M in HA3. exfalso. lia.
Qed.
Print Assumptions C47_header_coo.

(** Two edges, labels and ordinals of 4 bytes, 45 bytes: cut after 12 bytes an
    error, after 17 an empty COO of 5 rows, after 26 two edges (0,0). *)
Definition ex_ch_coo : coo unit := mkCoo [Some 1%Z; Some 4%Z] [Some 3%Z; Some 2%Z] [] (Some 5%Z) (Some 5%Z) (Some 5%Z) 2%Z.
Definition ex_ch_bytes : list byte :=
  (chars "PIGO-COO-v1" ++ [4; 4;  5; 0; 0; 0;  5; 0; 0; 0;  5; 0; 0; 0;  2; 0; 0; 0;  1; 0; 0; 0;  4; 0; 0; 0;  3; 0; 0; 0;  2; 0; 0; 0])%Z%list.
Definition ex_ch_l : lchoice :=
  mkLchoice 2 [] (2, [1; 0]) (1, []) (3, []) (mkGchoice 1 [] []) (mkChoice 1 0 [] [] [] [] []) [] [].
Example C47_header_applies :
  coo_layout u32 u32 None ex_ch_coo = map Some ex_ch_bytes /\
  coo_open (W:=unit) u32 u32 None no_flags 64 (chars "a.bin") (Some (firstn 12 ex_ch_bytes)) AUTO ex_ch_l = Throw EError /\
  coo_open (W:=unit) u32 u32 None no_flags 64 (chars "a.bin") (Some (firstn 17 ex_ch_bytes)) AUTO ex_ch_l =
    Ok (mkCoo [] [] [] (Some 0%Z) (Some 5%Z) (Some 0%Z) 0%Z) /\
  coo_open (W:=unit) u32 u32 None no_flags 64 (chars "a.bin") (Some (firstn 26 ex_ch_bytes)) AUTO ex_ch_l =
    Ok (mkCoo [Some 0%Z; Some 0%Z] [Some 0%Z; Some 0%Z] [] (Some 5%Z) (Some 5%Z) (Some 5%Z) 2%Z).
Proof.
  assert (H32 : is_ity u32) by (cbn; auto).
  assert (EL : coo_layout u32 u32 None ex_ch_coo = map Some ex_ch_bytes) by (vm_compute; reflexivity).
  assert (F5 : fit u32 (Some 5%Z)) by (exists 5%Z; split; reflexivity).
  assert (HT : teams ex_ch_l) by (unfold teams; cbn; lia).
  assert (H5 : 5 <= 12) by lia. assert (H12 : 12 <= 12) by lia.
  split; [exact EL|]. split; [|split].
  - apply (C47_short_coo u32 u32 None no_flags ex_ch_coo 64 (chars "a.bin") AUTO ex_ch_l ex_ch_bytes 12 H32 H32 F5 F5 F5 ltac:(lia) (or_intror (conj eq_refl H5)) EL H12).
  - destruct (C47_header_coo u32 u32 None no_flags ex_ch_coo 5 5 5 64 (chars "a.bin") AUTO ex_ch_l ex_ch_bytes 17 H32 H32 eq_refl eq_refl eq_refl
      ltac:(repeat split) ltac:(cbn; lia) I HT ltac:(vm_compute; lia) (or_introl eq_refl) EL ltac:(lia) ltac:(vm_compute; lia)) as [H _].
    apply H. vm_compute. lia.
  - destruct (C47_header_coo u32 u32 None no_flags ex_ch_coo 5 5 5 64 (chars "a.bin") AUTO ex_ch_l ex_ch_bytes 26 H32 H32 eq_refl eq_refl eq_refl
      ltac:(repeat split) ltac:(cbn; lia) I HT ltac:(vm_compute; lia) (or_introl eq_refl) EL ltac:(lia) ltac:(vm_compute; lia)) as [H _].
    apply H. vm_compute. lia.
Qed.
