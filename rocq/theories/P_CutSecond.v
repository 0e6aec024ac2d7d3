(** * P_CutSecond: C47, a DiGraph file cut inside the header of its second CSR *)

From Coq Require Import String Permutation.
From Verif Require Import Base Reader ReaderLemmas Sched SchedLemmas CooExec Coo ElSpec ElFinal Ascii Csr SpecCsr CsrLemmas CsrMain Codec Bin SpecBin BinLemmas BinSave BinLoad Graph Load Tensor BinOpen BinBad SpecReweigh Reweigh SpecCut Cut P_Bin P_BinBad P_BinEx P_Cut CrashRead P_CutHead.
Notation length := List.length.
Open Scope list_scope.

(** The CSR at position [q] of a file whose last bytes, from within its header,
    are missing. *)
Lemma csr_header_mid {W} L O (wm : option (wmode W)) n nr nc m pre r pg (fn : list byte) ch b k :
  is_ity L -> is_ity O ->
  (inrange L n = true /\ inrange L nr = true /\ inrange L nc = true /\ inrange O m = true) -> room L n ->
  (0 <= n /\ 0 <= nr /\ 0 <= nc /\ 0 <= m)%Z ->
  match wm with None => True | Some w => 0 < cd_size (wm_bin w) end ->
  teams ch -> 1 <= pg -> b = pre ++ csr_head L O n nr nc m ++ r ->
  let q := length pre in
  let h := q + 13 + 3 * isize L + isize O in
  q + 13 <= k -> k < h -> h <= map_len (mkMem (firstn k b) pg) ->
  let left fp := Z.of_nat (k - fp) in
  let n' := (n mod 256 ^ left (q + 13)%nat)%Z in
  let m' := (m mod 256 ^ left (q + 13 + isize L)%nat)%Z in
  let size := h + isize O * Z.to_nat (n' + 1) + (isize L + match wm with None => 0 | Some w => cd_size (wm_bin w) end) * Z.to_nat m' in
  (size <= map_len (mkMem (firstn k b) pg) -> exists f',
   csr_read L O wm (reading (firstn k b) pg fn pre) AUTO ch =
     Ok (mkCsr (repeat (Some 0%Z) (Z.to_nat (n' + 1))) (repeat (Some 0%Z) (Z.to_nat m'))
           (match wm with None => [] | Some w => repeat (Some (cd_dec (wm_bin w) (repeat 0%Z (cd_size (wm_bin w))))) (Z.to_nat m') end)
           n' m' (Some (nr mod 256 ^ left (q + 13 + isize L + isize O)%nat)%Z) (Some (nc mod 256 ^ left (q + 13 + 2 * isize L + isize O)%nat)%Z), f')) /\
  (map_len (mkMem (firstn k b) pg) < size -> csr_read L O wm (reading (firstn k b) pg fn pre) AUTO ch = UB).
Proof.
  intros HL HO (Rn & Rr & Rc & Rm) HR (N1 & N2 & N3 & N4) Hcd (U1 & U2 & U3) Hpg Es q h Hk Hkp HM left n' m' size.
  unfold csr_head, enc in Es. cbn [cint cd_enc] in Es.
  assert (Lb : length b = h + length r).
  { rewrite Es, !app_length, !le_length. unfold h, q. cbn [length csr_magic]. change (isize u8) with 1. lia. }
  set (s := firstn k b) in *. assert (Ls : length s = k) by (unfold s; rewrite firstn_length; lia).
  set (M := map_len (mkMem s pg)) in *. assert (EM : M = paged pg k) by (unfold M, map_len, flen, paged; cbn [bytes page]; rewrite Ls; reflexivity).
  set (z := M - k). assert (Hz : k + z <= paged pg k) by lia.
  assert (Hz2 : k + z = M) by lia.
  assert (ES : exists s', s = pre ++ s' /\ begins s' csr_magic).
  { exists (firstn (k - q) (skipn q b)). split.
    - unfold s. rewrite Es. rewrite firstn_app, (firstn_all2 pre) by (fold q; lia). f_equal. fold q. unfold q. rewrite skipn_exact by reflexivity. reflexivity.
    - rewrite Es. unfold q. rewrite skipn_exact by reflexivity. fold q. rewrite <- !app_assoc. rewrite firstn_app, (firstn_all2 csr_magic) by (cbn; lia).
      destruct (k - q - length csr_magic) as [|j] eqn:Ej; [cbn in Ej; lia|]. change (isize u8) with 1. cbn [le app firstn]. eexists _, _. reflexivity. }
  destruct ES as (s' & Es' & Hb).
  assert (B8 : forall t, is_ity t -> inrange u8 (size_byte t) = true /\ (0 <= size_byte t)%Z).
  { intros t Ht. unfold is_ity in Ht. cbn [In] in Ht. repeat (destruct Ht as [<-|Ht]; [vm_compute; split; [reflexivity|discriminate]|]). destruct Ht. }
  destruct (B8 L HL) as [BL1 BL2]. destruct (B8 O HO) as [BO1 BO2].
  assert (H8 : is_ity u8) by (cbn; tauto).
  assert (EO : csr_read L O wm (reading s pg fn pre) AUTO ch =
     csr_tail L O O (wbin wm) n' (nr mod 256 ^ left (q + 13 + isize L + isize O)%nat) (nc mod 256 ^ left (q + 13 + 2 * isize L + isize O)%nat) m'
       (mkRfile (mkMem s pg) h fn) (lc_b1 ch) (lc_b2 ch) (lc_b3 ch)).
  { unfold csr_read.
    rewrite (guess_begins_ft AUTO _ PIGO_CSR_BIN (or_introl eq_refl)); [|discriminate|apply (guess_csr s pg fn pre s' Es' Hb)].
    cbn [bind]. unfold csr_direct, csr_read_bin. destruct Hb as (x & t & Et).
    rewrite (rd_str_ok s pg fn pre csr_magic (x :: t)) by (discriminate || (rewrite Es', Et; reflexivity)). cbn [bind]. unfold reading. rewrite app_length. fold q.
    rewrite <- !app_assoc in Es. rewrite app_assoc in Es. unfold s in *.
    assert (E1 := Es). change (length csr_magic) with 11.
    assert (L1 : q + 11 = length (pre ++ csr_magic)) by (rewrite app_length; reflexivity).
    rewrite (rd_field u8 _ _ _ b k z pg fn (q + 11) H8 BL1 BL2 E1 L1) by (change (isize u8) with 1; lia). cbn [bind].
    rewrite app_assoc in E1. change (isize u8) with 1 in E1 |- *.
    rewrite (rd_field u8 _ _ _ b k z pg fn (q + 11 + 1) H8 BO1 BO2 E1) by ((rewrite app_length, le_length; lia) || (change (isize u8) with 1; lia)). cbn [bind].
    rewrite (small_mod u8 (size_byte L)) by (auto; cbn; lia). rewrite (small_mod u8 (size_byte O)) by (auto; cbn; lia). rewrite !Z.eqb_refl. cbn [negb].
    change (isize u8) with 1. replace (q + 11 + 1 + 1) with (q + 13) by lia.
    rewrite app_assoc in E1.
    rewrite (rd_field L _ _ _ b k z pg fn (q + 13) HL Rn N1 E1) by ((rewrite !app_length, !le_length; fold q; cbn [length csr_magic]; change (isize u8) with 1; lia) || lia). cbn [bind].
    rewrite app_assoc in E1.
    rewrite (rd_field O _ _ _ b k z pg fn (q + 13 + isize L) HO Rm N4 E1) by ((rewrite !app_length, !le_length; fold q; cbn [length csr_magic]; change (isize u8) with 1; lia) || lia). cbn [bind].
    rewrite app_assoc in E1.
    rewrite (rd_field L _ _ _ b k z pg fn (q + 13 + isize L + isize O) HL Rr N2 E1) by ((rewrite !app_length, !le_length; fold q; cbn [length csr_magic]; change (isize u8) with 1; lia) || lia). cbn [bind].
    rewrite app_assoc in E1. replace (q + 13 + isize L + isize O + isize L) with (q + 13 + 2 * isize L + isize O) by lia.
    rewrite (rd_field L _ _ _ b k z pg fn (q + 13 + 2 * isize L + isize O) HL Rc N3 E1) by ((rewrite !app_length, !le_length; fold q; cbn [length csr_magic]; change (isize u8) with 1; lia) || lia). cbn [bind].
    replace (q + 13 + 2 * isize L + isize O + isize L) with h by (unfold h; lia).
    reflexivity. }
  assert (Hm0 : (0 <= m')%Z) by (unfold m', left; apply Z.mod_pos_bound, Z.pow_pos_nonneg; lia).
  assert (Hn0 : (0 <= n' <= n)%Z) by (unfold n', left; split; [apply Z.mod_pos_bound, Z.pow_pos_nonneg; lia|apply Z.mod_le; [exact N1|apply Z.pow_pos_nonneg; lia]]).
  assert (HR' : room L n') by (destruct HR as [R1 R2]; split; [lia|destruct R2; [left; assumption|right; lia]]).
  set (n1 := Z.to_nat (n' + 1)) in *.
  set (mm := Z.to_nat m') in *. assert (Em : m' = Z.of_nat mm) by (unfold mm; lia).
  assert (Ew : size = h + isize O * n1 + isize L * mm + weight_size (wbin wm) mm).
  { unfold size. destruct wm as [w|]; cbn [wbin option_map weight_size]; lia. }
  assert (Hcw : match wbin wm with None => True | Some cd => 0 < cd_size cd end) by (destruct wm; exact Hcd).
  split; intros HS; rewrite EO.
  - rewrite Em. rewrite (csr_tail_cut L O (wbin wm) n' _ _ mm s z pg fn) by (auto; rewrite ?Ls; try fold n1; lia). fold n1.
    assert (HA : forall {V} (cd : codec V) u p, h <= p -> p + cd_size cd * u <= k + z ->
      array_at cd u p (s ++ repeat 0%Z z) = repeat (Some (cd_dec cd (repeat 0%Z (cd_size cd)))) u).
    { intros V cd u p Hp1 Hp2. unfold array_at. rewrite skipn_app, skipn_all2 by lia. cbn [app]. rewrite Ls.
      replace z with ((p - k) + (z - (p - k))) by lia. rewrite repeat_app, skipn_app, skipn_all2 by (rewrite repeat_length; lia).
      rewrite repeat_length, Nat.sub_diag. cbn [app skipn]. rewrite values_zeros by lia. apply repeat_map. }
    assert (HZ : forall t, is_ity t -> cd_dec (cint t) (repeat 0%Z (isize t)) = 0%Z).
    { clear. intros t Ht. unfold is_ity in Ht. cbn [In] in Ht. repeat (destruct Ht as [<-|Ht]; [vm_compute; reflexivity|]). destruct Ht. }
    pose proof (HZ L HL) as ZL. pose proof (HZ O HO) as ZO.
    rewrite (HA _ (cint O)) by (cbn [cint cd_size]; lia). rewrite (HA _ (cint L)) by (cbn [cint cd_size]; lia). cbn [cint cd_size] in ZL, ZO |- *. rewrite ZL, ZO.
    destruct wm as [w|]; cbn [wbin option_map weight_size] in *; [|eexists; reflexivity]. rewrite HA by lia. eexists; reflexivity.
  - unfold csr_tail, csr_alloc, alloc. rewrite (plus1_ok L _ HL (proj1 Hn0) HR'). destruct (Z.ltb_spec m' 0); [lia|]. cbn [bind]. fold mm.
    assert (EA : (if is_some (wbin wm) then Ok (fresh mm) else Ok []) = Ok (if is_some (wbin wm) then @fresh W mm else [])) by (destruct (wbin wm); reflexivity).
    rewrite EA. cbn [bind]. destruct (Z.ltb_spec (n' + 1) 0); [lia|]. cbn [bind]. fold n1.
    match goal with |- context [rd_array (cint O) ?l ?v (lc_b1 ch) ?f] =>
      destruct (rd_array_cases (cint O) l v (lc_b1 ch) f) as [->|(x & -> & HA1)] end;
      [assumption|cbn [rf_mem page]; lia|cbn [rf_mem rf_fp]; fold M; lia|reflexivity|].
    cbn [bind]. cbn [rf_mem rf_fp rf_name] in *. fold M in HA1.
    match goal with |- context [rd_array (cint L) ?l ?v (lc_b2 ch) ?f] =>
      destruct (rd_array_cases (cint L) l v (lc_b2 ch) f) as [->|(y & -> & HA2)] end;
      [assumption|cbn [rf_mem page]; lia|cbn [rf_mem rf_fp]; fold M; lia|reflexivity|].
    cbn [bind]. cbn [rf_mem rf_fp rf_name] in *. fold M in HA2.
    match goal with |- context [get_weights (wbin wm) ?l mm (lc_b3 ch) ?f] =>
      destruct (get_weights_cases (wbin wm) l mm (lc_b3 ch) f) as [->|(w & -> & HA3)] end;
      [assumption|cbn [rf_mem page]; lia|cbn [rf_mem rf_fp]; fold M; lia|reflexivity|].
    cbn [rf_mem rf_fp rf_name] in *. fold M in HA3. exfalso. lia.
Qed.

Lemma load_n_cases m : 1 <= page m -> forall n d, load_n m n d = UB \/ exists r, load_n m n d = Ok r /\ (1 <= n -> d + n <= map_len m).
Proof.
  intros Hp. induction n as [|n IH]; intros d; cbn [load_n]; [right; exists []; split; [reflexivity|lia]|].
  destruct (Nat.le_gt_cases (map_len m) d) as [Ho|Hi]; [rewrite load_out by (lia || assumption); left; reflexivity|].
  destruct (load m d) as [x| | |] eqn:E; cbn [bind]; [|exfalso|left; reflexivity|exfalso].
  - destruct (IH (S d)) as [->|(r & -> & H)]; [left; reflexivity|]. right. eexists. split; [reflexivity|]. intros _. destruct n; [lia|]. specialize (H ltac:(lia)). lia.
  - unfold load in E. destruct (nth_error (bytes m) d); [discriminate|]. destruct (d <? map_len m); discriminate.
  - unfold load in E. destruct (nth_error (bytes m) d); [discriminate|]. destruct (d <? map_len m); discriminate.
Qed.
Lemma rd_cases {V} (c : codec V) m fp fn : 1 <= page m -> 1 <= cd_size c ->
  rd c (mkRfile m fp fn) = UB \/ exists v, rd c (mkRfile m fp fn) = Ok (v, mkRfile m (fp + cd_size c) fn) /\ fp + cd_size c <= map_len m.
Proof.
  intros Hp Hc. unfold rd. cbn [rf_mem rf_fp rf_name]. destruct (load_n_cases m Hp (cd_size c) fp) as [->|(r & -> & H)]; [left; reflexivity|].
  right. cbn [bind]. eexists. split; [reflexivity|]. apply H, Hc.
Qed.

(** The header goes on behind the mapping. *)
Lemma csr_header_out {W} L O (wm : option (wmode W)) n nr nc m pre r pg (fn : list byte) ch b k :
  is_ity L -> is_ity O -> 1 <= pg -> b = pre ++ csr_head L O n nr nc m ++ r ->
  let q := length pre in
  let h := q + 13 + 3 * isize L + isize O in
  q + 13 <= k -> k <= length b -> map_len (mkMem (firstn k b) pg) < h -> csr_read L O wm (reading (firstn k b) pg fn pre) AUTO ch = UB.
Proof.
  intros HL HO Hpg Es q h Hk Hkb HM.
  unfold csr_head, enc in Es. cbn [cint cd_enc] in Es.
  set (s := firstn k b) in *. assert (Ls : length s = k) by (unfold s; rewrite firstn_length; lia).
  pose proof (flen_map_len (mkMem s pg) Hpg) as HF. unfold flen in HF. cbn [bytes] in HF. rewrite Ls in HF.
  assert (Hz : k + 0 <= paged pg k) by (pose proof (whole_room s pg Hpg) as H; rewrite Ls in H; exact H).
  assert (ES : exists s', s = pre ++ s' /\ begins s' csr_magic).
  { exists (firstn (k - q) (skipn q b)). split.
    - unfold s. rewrite Es. rewrite firstn_app, (firstn_all2 pre) by (fold q; lia). f_equal. fold q. unfold q. rewrite skipn_exact by reflexivity. reflexivity.
    - rewrite Es. unfold q. rewrite skipn_exact by reflexivity. fold q. rewrite <- !app_assoc. rewrite firstn_app, (firstn_all2 csr_magic) by (cbn; lia).
      destruct (k - q - length csr_magic) as [|j] eqn:Ej; [cbn in Ej; lia|]. change (isize u8) with 1. cbn [le app firstn]. eexists _, _. reflexivity. }
  destruct ES as (s' & Es' & Hb).
  assert (B8 : forall t, is_ity t -> inrange u8 (size_byte t) = true /\ (0 <= size_byte t)%Z).
  { intros t Ht. unfold is_ity in Ht. cbn [In] in Ht. repeat (destruct Ht as [<-|Ht]; [vm_compute; split; [reflexivity|discriminate]|]). destruct Ht. }
  destruct (B8 L HL) as [BL1 BL2]. destruct (B8 O HO) as [BO1 BO2].
  assert (H8 : is_ity u8) by (cbn; tauto).
  assert (S1 : forall t, is_ity t -> 1 <= isize t) by (clear; intros t Ht; unfold is_ity in Ht; cbn [In] in Ht; repeat (destruct Ht as [<-|Ht]; [cbn; lia|]); destruct Ht).
  unfold csr_read.
  rewrite (guess_begins_ft AUTO _ PIGO_CSR_BIN (or_introl eq_refl)); [|discriminate|apply (guess_csr s pg fn pre s' Es' Hb)].
  cbn [bind]. unfold csr_direct, csr_read_bin. destruct Hb as (x & t & Et).
  rewrite (rd_str_ok s pg fn pre csr_magic (x :: t)) by (discriminate || (rewrite Es', Et; reflexivity)). cbn [bind]. unfold reading. rewrite app_length. fold q.
  rewrite <- !app_assoc in Es. rewrite app_assoc in Es. unfold s in *.
  assert (E1 := Es). change (length csr_magic) with 11.
  assert (L1 : q + 11 = length (pre ++ csr_magic)) by (rewrite app_length; reflexivity).
  rewrite (rd_field u8 _ _ _ b k 0 pg fn (q + 11) H8 BL1 BL2 E1 L1) by (change (isize u8) with 1; lia). cbn [bind].
  rewrite app_assoc in E1. change (isize u8) with 1 in E1 |- *.
  rewrite (rd_field u8 _ _ _ b k 0 pg fn (q + 11 + 1) H8 BO1 BO2 E1) by ((rewrite app_length, le_length; lia) || (change (isize u8) with 1; lia)). cbn [bind].
  rewrite (small_mod u8 (size_byte L)) by (auto; cbn; lia). rewrite (small_mod u8 (size_byte O)) by (auto; cbn; lia). rewrite !Z.eqb_refl. cbn [negb].
  change (isize u8) with 1. replace (q + 11 + 1 + 1) with (q + 13) by lia.
  pose proof (S1 L HL) as HSL. pose proof (S1 O HO) as HSO. cbn [cint cd_size].
  set (mm := mkMem (firstn k b) pg) in *.
  destruct (rd_cases (cint L) mm (q + 13) fn Hpg HSL) as [->|(v1 & -> & _)]; [reflexivity|]. cbn [bind cint cd_size].
  destruct (rd_cases (cint O) mm (q + 13 + isize L) fn Hpg HSO) as [->|(v2 & -> & _)]; [reflexivity|]. cbn [bind cint cd_size].
  destruct (rd_cases (cint L) mm (q + 13 + isize L + isize O) fn Hpg HSL) as [->|(v3 & -> & _)]; [reflexivity|]. cbn [bind cint cd_size].
  destruct (rd_cases (cint L) mm (q + 13 + isize L + isize O + isize L) fn Hpg HSL) as [->|(v4 & -> & H4)]; [reflexivity|]. exfalso. cbn [cint cd_size] in H4. unfold h in HM. lia.
Qed.

(** One byte for the sizes of the types: an error. *)
Lemma csr_header_12 {W} L O (wm : option (wmode W)) n nr nc m pre r pg (fn : list byte) ch b :
  is_ity L -> is_ity O -> b = pre ++ csr_head L O n nr nc m ++ r ->
  let k := length pre + 12 in
  off_page pg (firstn k b) -> csr_read L O wm (reading (firstn k b) pg fn pre) AUTO ch = Throw EError.
Proof.
  intros HL HO Es k Hoff. assert (Hpg : 1 <= pg) by (destruct Hoff; lia).
  unfold csr_head, enc in Es. cbn [cint cd_enc] in Es. change (isize u8) with 1 in Es.
  assert (Lb : k + 1 <= length b) by (rewrite Es, !app_length, !le_length; unfold k; cbn [length csr_magic]; lia).
  set (s := firstn k b) in *. assert (Ls : length s = k) by (unfold s; rewrite firstn_length; lia).
  assert (ES : exists x, s = pre ++ csr_magic ++ [x]).
  { unfold s, k. rewrite Es. cbn [le]. rewrite <- !app_assoc. eexists. rewrite firstn_app, (firstn_all2 pre) by lia. f_equal.
    replace (length pre + 12 - length pre) with 12 by lia. reflexivity. }
  destruct ES as (x & ES).
  assert (Hb : begins (csr_magic ++ [x]) csr_magic) by (eexists _, _; reflexivity).
  pose proof (slack_off_page pg s Hoff) as HS. unfold slack, flen in HS. cbn [bytes] in HS. rewrite Ls in HS.
  assert (Hroom : length s + 1 <= paged pg (length s)).
  { rewrite Ls. unfold map_len, flen in HS. cbn [bytes page] in HS. rewrite Ls in HS. unfold paged. lia. }
  unfold csr_read.
  rewrite (guess_begins_ft AUTO _ PIGO_CSR_BIN (or_introl eq_refl)); [|discriminate|apply (guess_csr s pg fn pre _ ES Hb)].
  cbn [bind]. unfold csr_direct, csr_read_bin.
  rewrite (rd_str_ok s pg fn pre csr_magic [x]) by (discriminate || exact ES). cbn [bind]. unfold reading. rewrite app_length.
  change (length csr_magic) with 11.
  rewrite (rd_cut (cint u8) s pg fn 1) by (cbn [cint cd_size]; change (isize u8) with 1; unfold k in *; lia). cbn [bind].
  rewrite (rd_cut (cint u8) s pg fn 1) by (cbn [cint cd_size]; change (isize u8) with 1; unfold k in *; lia). cbn [bind].
  cbn [cint cd_size]. change (isize u8) with 1.
  destruct (negb (_ =? size_byte L)%Z); [reflexivity|].
  rewrite (skipn_exact s (repeat 0%Z 1)) by (unfold k in *; lia). cbn [firstn repeat].
  assert (HZ : (0 =? size_byte O)%Z = false).
  { clear - HO. unfold is_ity in HO. cbn [In] in HO. repeat (destruct HO as [<-|HO]; [reflexivity|]). destruct HO. }
  change (cd_dec (cint u8) [0%Z]) with 0%Z. rewrite HZ. reflexivity.
Qed.

(** 12 bytes of the second CSR are left: an error.  At least 13, but not its
    header: the incoming edges are right; the numbers of the second header lose
    their upper bytes, and the outgoing CSR has as many offsets and endpoints as
    is left of them, all zero, if they lie in the last page; otherwise memory
    outside the mapping is accessed. *)
Theorem C47_digraph_second : forall {W} L O (wm : option (wmode W)) P i o nr nc pg fn ft ch1 ch2 c1 c2 b k,
  is_ity L -> is_ity O ->
  csr_shape (wbin wm) i -> csr_full L O (wbin wm) P i -> room L (cs_n i) ->
  cs_nrows o = Some nr -> cs_ncols o = Some nc ->
  (inrange L (cs_n o) = true /\ inrange L nr = true /\ inrange L nc = true /\ inrange O (cs_m o) = true) -> room L (cs_n o) ->
  (0 <= cs_n o /\ 0 <= nr /\ 0 <= nc /\ 0 <= cs_m o)%Z ->
  match wm with None => True | Some w => 0 < cd_size (wm_bin w) end ->
  teams ch1 -> teams ch2 -> 1 <= pg -> ft = AUTO \/ ft = PIGO_DIGRAPH_BIN ->
  digraph_layout L O (wbin wm) i o = map Some b ->
  let q := length (text "PIGO-DiGraph-v1") + length (csr_layout L O (wbin wm) i) in
  let h := q + 13 + 3 * isize L + isize O in
  let left fp := Z.of_nat (k - fp) in
  let n' := (cs_n o mod 256 ^ left (q + 13)%nat)%Z in
  let m' := (cs_m o mod 256 ^ left (q + 13 + isize L)%nat)%Z in
  let size := h + isize O * Z.to_nat (n' + 1) + (isize L + match wm with None => 0 | Some w => cd_size (wm_bin w) end) * Z.to_nat m' in
  (k = q + 12 -> off_page pg (firstn k b) -> digraph_open L O wm pg fn (Some (firstn k b)) ft ch1 ch2 c1 c2 = Throw EError) /\
  (q + 13 <= k -> k < h ->
   (size <= map_len (mkMem (firstn k b) pg) ->
    digraph_open L O wm pg fn (Some (firstn k b)) ft ch1 ch2 c1 c2 =
     Ok (i, mkCsr (repeat (Some 0%Z) (Z.to_nat (n' + 1))) (repeat (Some 0%Z) (Z.to_nat m'))
           (match wm with None => [] | Some w => repeat (Some (cd_dec (wm_bin w) (repeat 0%Z (cd_size (wm_bin w))))) (Z.to_nat m') end)
           n' m' (Some (nr mod 256 ^ left (q + 13 + isize L + isize O)%nat)%Z) (Some (nc mod 256 ^ left (q + 13 + 2 * isize L + isize O)%nat)%Z))) /\
   (map_len (mkMem (firstn k b) pg) < size -> digraph_open L O wm pg fn (Some (firstn k b)) ft ch1 ch2 c1 c2 = UB)).
Proof.
  intros W L O wm P i o nr nc pg fn ft ch1 ch2 c1 c2 b k HL HO Si Fi Ri Er Ec RR HR NN Hcd (U1 & U2 & U3) V Hpg Hft Eb q h left n' m' size.
  destruct (csr_read_ok L O (wbin wm) P HL HO i _ _ _ Si Fi Ri U1 U2 U3) as (bi & Ei & Ni & Hri).
  assert (EB : exists bo, b = (digraph_magic ++ bi) ++ bo /\ map Some bo = csr_layout L O (wbin wm) o).
  { apply map_Some_split. rewrite <- Eb. unfold digraph_layout. rewrite Ei, map_app, <- app_assoc. reflexivity. }
  destruct EB as (bo & EB & Eo). symmetry in Eo.
  destruct (csr_split L O (wbin wm) o nr nc bo HL HO Er Ec Eo) as (r & Ebo & _).
  assert (Lq : q = length (digraph_magic ++ bi)) by (unfold q; rewrite Ei, map_length, app_length; reflexivity).
  pose proof (csr_begins L O (wbin wm) i bi Ei) as Hbi.
  assert (EBr : b = (digraph_magic ++ bi) ++ csr_head L O (cs_n o) nr nc (cs_m o) ++ r) by (rewrite EB, Ebo; reflexivity).
  set (s := firstn k b) in *.
  assert (HC : q <= k -> digraph_open L O wm pg fn (Some s) ft ch1 ch2 c1 c2 =
     ('(o', _) <- csr_read L O wm (reading s pg fn (digraph_magic ++ bi)) AUTO ch2 ;; Ok (i, o'))).
  { intros Hk1. set (rest := firstn (k - q) bo). assert (ES : s = (digraph_magic ++ bi) ++ rest).
    { unfold s. rewrite EB, firstn_app, (firstn_all2 (digraph_magic ++ bi)) by lia. f_equal. rewrite <- Lq. reflexivity. }
    unfold digraph_open. rewrite open_reading by (rewrite ES; discriminate). cbn [bind]. unfold digraph_read.
    rewrite (guess_begins_ft ft _ PIGO_DIGRAPH_BIN Hft); [|discriminate|].
    2:{ eapply (guess_digraph s pg fn [] s); [reflexivity|]. rewrite ES. destruct Hbi as (x & y & ->). eexists _, _. rewrite <- !app_assoc. reflexivity. }
    cbn [bind]. rewrite (rd_str_ok s pg fn [] digraph_magic (bi ++ rest)); [|rewrite ES, <- app_assoc; reflexivity|destruct bi; [congruence|discriminate]].
    cbn [bind app]. unfold csr_read at 1. rewrite (guess_begins_ft AUTO _ PIGO_CSR_BIN (or_introl eq_refl)); [|discriminate|].
    2:{ eapply (guess_csr s pg fn digraph_magic (bi ++ rest)); [rewrite ES, <- app_assoc; reflexivity|]. apply begins_app. exact Hbi. }
    cbn [bind]. unfold csr_direct at 1. rewrite (Hri s pg fn digraph_magic rest) by (rewrite ES, <- app_assoc; reflexivity). cbn [bind].
    destruct (csr_read L O wm (reading s pg fn (digraph_magic ++ bi)) AUTO ch2) as [[o' f']|?| |]; reflexivity. }
  assert (Lh : h <= length b).
  { rewrite EBr, app_length, <- Lq, app_length. unfold csr_head, enc. rewrite !app_length, !enc_len. cbn [cint cd_size length csr_magic]. change (isize u8) with 1. unfold h. lia. }
  split.
  - intros -> Hoff. rewrite HC by lia. unfold s in *. rewrite Lq in Hoff |- *. rewrite (csr_header_12 L O wm _ nr nc _ _ r pg fn ch2 b HL HO EBr Hoff). reflexivity.
  - intros Hk1 Hk2. assert (Hsz : h <= size) by (unfold size; lia). split; intros HS; rewrite HC by lia.
    + destruct (csr_header_mid L O wm _ nr nc _ _ r pg fn ch2 b k HL HO RR HR NN Hcd V Hpg EBr) as [H _];
        rewrite <- ?Lq; [exact Hk1|exact Hk2|fold s; unfold h in *; lia|]. rewrite <- Lq in H. destruct (H HS) as (f' & E). fold s in E. rewrite E. reflexivity.
    + destruct (Nat.le_gt_cases h (map_len (mkMem s pg))) as [Hi|Hi].
      * destruct (csr_header_mid L O wm _ nr nc _ _ r pg fn ch2 b k HL HO RR HR NN Hcd V Hpg EBr) as [_ H];
          rewrite <- ?Lq; [exact Hk1|exact Hk2|exact Hi|]. rewrite <- Lq in H. fold s in H. rewrite (H HS). reflexivity.
      * pose proof (csr_header_out L O wm _ nr nc _ _ r pg fn ch2 b k HL HO Hpg EBr) as H. rewrite <- Lq in H. fold s in H. rewrite H; [reflexivity|exact Hk1|lia|exact Hi].
Qed.
Print Assumptions C47_digraph_second.

(** Two CSRs of two vertices and two edges. *)
From Verif Require Import P_CutHeadCsr P_CutGap.
Example C47_digraph_second_applies :
  digraph_layout u32 u32 None ex_ch_csr ex_ch_csr = map Some ex_cg_bytes /\
  digraph_open (W:=unit) u32 u32 None 4096 (chars "a.bin") (Some (firstn 76 ex_cg_bytes)) AUTO ex_ch_l ex_ch_l (lc_conv ex_ch_l) (lc_conv ex_ch_l) = Throw EError /\
  digraph_open (W:=unit) u32 u32 None 4096 (chars "a.bin") (Some (firstn 78 ex_cg_bytes)) AUTO ex_ch_l ex_ch_l (lc_conv ex_ch_l) (lc_conv ex_ch_l) =
    Ok (ex_ch_csr, mkCsr [Some 0%Z; Some 0%Z; Some 0%Z] [] [] 2%Z 0%Z (Some 0%Z) (Some 0%Z)) /\
  digraph_open (W:=unit) u32 u32 None 78 (chars "a.bin") (Some (firstn 78 ex_cg_bytes)) AUTO ex_ch_l ex_ch_l (lc_conv ex_ch_l) (lc_conv ex_ch_l) = UB.
Proof.
  assert (H32 : is_ity u32) by (cbn; auto).
  assert (EL : digraph_layout u32 u32 None ex_ch_csr ex_ch_csr = map Some ex_cg_bytes) by (vm_compute; reflexivity).
  assert (HT : teams ex_ch_l) by (unfold teams; cbn; lia).
  assert (HR : room u32 (cs_n ex_ch_csr)) by (split; [vm_compute; discriminate|right; vm_compute; reflexivity]).
  assert (HS : csr_shape (W:=unit) (wbin None) ex_ch_csr) by (unfold csr_shape; cbn; repeat split; lia).
  assert (HF : csr_full (W:=unit) u32 u32 (wbin None) (fun _ => True) ex_ch_csr).
  { unfold csr_full, fit. cbn. repeat split; eauto. all: try (repeat constructor; eexists; split; reflexivity). }
  assert (HO : off_page 4096 (firstn 76 ex_cg_bytes)) by (split; [lia|vm_compute; discriminate]).
  assert (RR : inrange u32 (cs_n ex_ch_csr) = true /\ inrange u32 2 = true /\ inrange u32 2 = true /\ inrange u32 (cs_m ex_ch_csr) = true) by (repeat split).
  assert (NN : (0 <= cs_n ex_ch_csr /\ 0 <= 2 /\ 0 <= 2 /\ 0 <= cs_m ex_ch_csr)%Z) by (cbn; lia).
  assert (P1 : 1 <= 4096) by lia. assert (P2 : 1 <= 78) by lia.
  pose proof (fun pg k (H : 1 <= pg) => C47_digraph_second (W:=unit) u32 u32 None (fun _ => True) ex_ch_csr ex_ch_csr 2 2 pg (chars "a.bin") AUTO ex_ch_l ex_ch_l (lc_conv ex_ch_l) (lc_conv ex_ch_l) ex_cg_bytes k
    H32 H32 HS HF HR eq_refl eq_refl RR HR NN Logic.I HT HT H (or_introl eq_refl) EL) as HH.
  split; [exact EL|]. split; [|split].
  - destruct (HH 4096 76 P1) as [H _]. apply H; [reflexivity|exact HO].
  - destruct (HH 4096 78 P1) as [_ H]. destruct H as [H _]; [vm_compute; lia..|]. apply H. 
    match goal with |- ?a <= ?b => assert (Ha : Nat.leb a b = true) by (vm_compute; reflexivity) end. apply Nat.leb_le. exact Ha.
  - destruct (HH 78 78 P2) as [_ H]. destruct H as [_ H]; [vm_compute; lia..|]. apply H.
    match goal with |- ?a < ?b => assert (Ha : Nat.ltb a b = true) by (vm_compute; reflexivity) end. apply Nat.ltb_lt. exact Ha.
Qed.
