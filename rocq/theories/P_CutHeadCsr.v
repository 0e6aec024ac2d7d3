(** * P_CutHeadCsr: C47, a binary CSR file cut inside its header *)

From Coq Require Import String.
From Verif Require Import Base Reader Sched SchedLemmas CooExec Coo Ascii Csr SpecCsr CsrLemmas Codec Bin SpecBin BinLemmas BinSave BinLoad Graph Load Tensor BinOpen BinBad SpecReweigh Reweigh SpecCut Cut P_Bin P_BinBad P_BinEx CrashRead P_CutHead.
Notation length := List.length.
Open Scope list_scope.

(** At most 12 bytes are left. *)
Theorem C47_short_csr : forall {W} L O (wm : option (wmode W)) (c : csr W) pg fn ft ch b k,
  is_ity L -> is_ity O -> fit L (cs_nrows c) -> fit L (cs_ncols c) -> 13 <= pg ->
  ft = PIGO_CSR_BIN \/ (ft = AUTO /\ 5 <= k) ->
  csr_layout L O (wbin wm) c = map Some b -> k <= 12 ->
  csr_open (W:=W) L O wm pg fn (Some (firstn k b)) ft ch = Throw EError.
Proof.
  intros W L O wm c pg fn ft ch b k HL HO (nr & Er & Hr) (nc & Ec & Hcc) Hpg Hft Eb Hk.
  destruct (csr_split L O (wbin wm) c nr nc b HL HO Er Ec Eb) as (r & Es & _).
  destruct (Nat.eq_dec k 0) as [->|Hk0]; [reflexivity|].
  assert (Em : exists q, b = csr_magic ++ q) by (rewrite Es; unfold csr_head; rewrite <- app_assoc; eexists; reflexivity).
  destruct Em as (q & Eq).
  assert (Lb : 13 <= length b).
  { rewrite Es. unfold csr_head, enc. rewrite !app_length, !enc_len. cbn [cint cd_size length csr_magic]. change (isize u8) with 1. lia. }
  set (s := firstn k b). assert (Ls : length s = k) by (unfold s; rewrite firstn_length; lia).
  assert (Hs : s <> []) by (intros E; rewrite E in Ls; cbn in Ls; lia).
  unfold csr_open. rewrite open_reading by exact Hs. cbn [bind]. unfold csr_read.
  destruct (Nat.le_gt_cases k 11) as [H11|H11].
  - assert (NB : forall mg, 11 <= length mg -> ~ begins s mg) by (intros mg Hm Hb; apply begins_len in Hb; lia).
    destruct Hft as [->|[-> H5]].
    + cbn [used bind]. unfold csr_direct, csr_read_bin. rewrite (rd_str_no s pg fn [] s csr_magic eq_refl) by (apply NB; cbn; lia). reflexivity.
    + cbn [used]. rewrite guess_throws; [reflexivity| | | | |]; try (apply NB; cbn; lia).
      assert (E5 : exists x t, s = pigo_magic ++ x :: t).
      { assert (E : s = firstn k csr_magic) by (unfold s; rewrite Eq, firstn_app; replace (k - length csr_magic) with 0 by (cbn; lia); cbn [firstn]; apply app_nil_r).
        rewrite E. clear - H5. do 5 (destruct k as [|k]; [lia|]). cbn. eexists _, _. reflexivity. }
      exact E5.
  - assert (Hk12 : k = 12) by lia. 
    assert (Hb : begins s csr_magic).
    { unfold s. rewrite Hk12, Eq, firstn_app. cbn [length csr_magic]. change (12 - 11) with 1. destruct q as [|x q]; [apply (f_equal (@length byte)) in Eq; cbn in Eq; lia|].
      exists x, []. reflexivity. }
    rewrite (guess_begins_ft ft _ PIGO_CSR_BIN); [|destruct Hft as [H|[H _]]; auto|discriminate|apply (guess_csr s pg fn [] s eq_refl Hb)].
    cbn [bind]. unfold csr_direct, csr_read_bin. destruct Hb as (x & t & Et).
    rewrite (rd_str_ok s pg fn [] csr_magic (x :: t) Et) by discriminate. cbn [bind]. unfold reading. cbn [length app].
    assert (Hroom : length s + 1 <= paged pg (length s)) by (pose proof (page_room pg (length s)); lia).
    rewrite (rd_cut (cint u8) s pg fn 1) by (cbn [cint cd_size length csr_magic]; change (isize u8) with 1; lia). cbn [bind].
    rewrite (rd_cut (cint u8) s pg fn 1) by (cbn [cint cd_size length csr_magic]; change (isize u8) with 1; lia). cbn [bind].
    cbn [cint cd_size length csr_magic]. change (isize u8) with 1. change (11 + 1) with 12.
    destruct (negb (_ =? size_byte L)%Z); [reflexivity|].
    rewrite (skipn_exact s (repeat 0%Z 1) 12) by lia. cbn [firstn repeat].
    assert (HZ : (0 =? size_byte O)%Z = false).
    { clear - HO. unfold is_ity in HO. cbn [In] in HO. repeat (destruct HO as [<-|HO]; [reflexivity|]). destruct HO. }
    change (cd_dec (cint u8) [0%Z]) with 0%Z. rewrite HZ. reflexivity.
Qed.
Print Assumptions C47_short_csr.

(** At least 13 bytes are left, but not the whole header.  The numbers of the
    header lose their upper bytes.  If offsets and endpoints for what remains of
    the numbers of vertices and entries lie in the last page, the load succeeds,
    and all offsets and endpoints are zero; otherwise memory outside the mapping
    is accessed. *)
Theorem C47_header_csr : forall {W} L O (wm : option (wmode W)) c nr nc pg fn ft ch b k,
  is_ity L -> is_ity O -> cs_nrows c = Some nr -> cs_ncols c = Some nc ->
  (inrange L (cs_n c) = true /\ inrange L nr = true /\ inrange L nc = true /\ inrange O (cs_m c) = true) -> room L (cs_n c) ->
  (0 <= cs_n c /\ 0 <= nr /\ 0 <= nc /\ 0 <= cs_m c)%Z ->
  match wm with None => True | Some m => 0 < cd_size (wm_bin m) end ->
  teams ch -> 13 + 3 * isize L + isize O <= pg -> ft = AUTO \/ ft = PIGO_CSR_BIN ->
  csr_layout L O (wbin wm) c = map Some b -> 13 <= k -> k < 13 + 3 * isize L + isize O ->
  let left fp := Z.of_nat (k - fp) in
  let n' := (cs_n c mod 256 ^ left 13%nat)%Z in
  let m' := (cs_m c mod 256 ^ left (13 + isize L)%nat)%Z in
  let size := 13 + 3 * isize L + isize O + isize O * Z.to_nat (n' + 1) + (isize L + match wm with None => 0 | Some m => cd_size (wm_bin m) end) * Z.to_nat m' in
  (size <= map_len (mkMem (firstn k b) pg) ->
   csr_open L O wm pg fn (Some (firstn k b)) ft ch =
     Ok (mkCsr (repeat (Some 0%Z) (Z.to_nat (n' + 1))) (repeat (Some 0%Z) (Z.to_nat m'))
           (match wm with None => [] | Some m => repeat (Some (cd_dec (wm_bin m) (repeat 0%Z (cd_size (wm_bin m))))) (Z.to_nat m') end)
           n' m' (Some (nr mod 256 ^ left (13 + isize L + isize O)%nat)%Z) (Some (nc mod 256 ^ left (13 + 2 * isize L + isize O)%nat)%Z))) /\
  (map_len (mkMem (firstn k b) pg) < size -> csr_open L O wm pg fn (Some (firstn k b)) ft ch = UB).
Proof.
  intros W L O wm c nr nc pg fn ft ch b k HL HO Er Ec (Rn & Rr & Rc & Rm) HR (N1 & N2 & N3 & N4) Hcd (U1 & U2 & U3) Hpg Hft Eb Hk Hkp left n' m' size.
  destruct (csr_split L O (wbin wm) c nr nc b HL HO Er Ec Eb) as (r & Es & _).
  unfold csr_head, enc in Es. cbn [cint cd_enc] in Es.
  assert (Lb : length b = 13 + 3 * isize L + isize O + length r).
  { rewrite Es, !app_length, !le_length. cbn [length csr_magic]. change (isize u8) with 1. lia. }
  set (s := firstn k b). assert (Ls : length s = k) by (unfold s; rewrite firstn_length; lia).
  pose proof (page_room pg k ltac:(lia) ltac:(lia)) as HP.
  set (M := map_len (mkMem s pg)). assert (EM : M = paged pg k) by (unfold M, map_len, flen, paged; cbn [bytes page]; rewrite Ls; reflexivity).
  set (z := M - k). assert (Hz : k + z <= paged pg k) by lia.
  assert (Hz2 : k + z = M) by lia.
  assert (Hb : begins s csr_magic).
  { unfold s. rewrite Es, <- !app_assoc. rewrite firstn_app, (firstn_all2 csr_magic) by (cbn; lia).
    destruct (k - length csr_magic) as [|j] eqn:Ej; [cbn in Ej; lia|]. change (isize u8) with 1. cbn [le app firstn]. eexists _, _. reflexivity. }
  assert (B8 : forall t, is_ity t -> inrange u8 (size_byte t) = true /\ (0 <= size_byte t)%Z).
  { intros t Ht. unfold is_ity in Ht. cbn [In] in Ht. repeat (destruct Ht as [<-|Ht]; [vm_compute; split; [reflexivity|discriminate]|]). destruct Ht. }
  destruct (B8 L HL) as [BL1 BL2]. destruct (B8 O HO) as [BO1 BO2].
  assert (H8 : is_ity u8) by (cbn; tauto).
  assert (EO : csr_open L O wm pg fn (Some s) ft ch =
    ('(x, _) <- csr_tail L O O (wbin wm) n' (nr mod 256 ^ left (13 + isize L + isize O)%nat) (nc mod 256 ^ left (13 + 2 * isize L + isize O)%nat) m'
       (mkRfile (mkMem s pg) (13 + 3 * isize L + isize O) fn) (lc_b1 ch) (lc_b2 ch) (lc_b3 ch) ;; Ok x)).
  { unfold csr_open. rewrite open_reading by (intros E; rewrite E in Ls; cbn in Ls; lia). cbn [bind]. unfold csr_read.
    rewrite (guess_begins_ft ft _ PIGO_CSR_BIN Hft); [|discriminate|apply (guess_csr s pg fn [] s eq_refl Hb)].
    cbn [bind]. unfold csr_direct, csr_read_bin. destruct Hb as (x & t & Et).
    rewrite (rd_str_ok s pg fn [] csr_magic (x :: t) Et) by discriminate. cbn [bind]. unfold reading. cbn [app].
    rewrite <- !app_assoc in Es. unfold s in *.
    assert (E1 := Es).
    rewrite (rd_field u8 _ _ _ b k z pg fn (length csr_magic) H8 BL1 BL2 E1) by (reflexivity || (cbn [length csr_magic]; change (isize u8) with 1; lia)). cbn [bind].
    rewrite (app_assoc csr_magic) in E1.
    rewrite (rd_field u8 _ _ _ b k z pg fn (length csr_magic + isize u8) H8 BO1 BO2 E1) by ((rewrite app_length, le_length; reflexivity) || (cbn [length csr_magic]; change (isize u8) with 1; lia)). cbn [bind].
    rewrite (small_mod u8 (size_byte L)) by (auto; cbn; lia). rewrite (small_mod u8 (size_byte O)) by (auto; cbn; lia). rewrite !Z.eqb_refl. cbn [negb].
    change (length csr_magic + isize u8 + isize u8) with 13.
    rewrite app_assoc in E1.
    rewrite (rd_field L _ _ _ b k z pg fn 13 HL Rn N1 E1) by ((rewrite !app_length, !le_length; reflexivity) || lia). cbn [bind].
    rewrite app_assoc in E1.
    rewrite (rd_field O _ _ _ b k z pg fn (13 + isize L) HO Rm N4 E1) by ((rewrite !app_length, !le_length; reflexivity) || lia). cbn [bind].
    rewrite app_assoc in E1.
    rewrite (rd_field L _ _ _ b k z pg fn (13 + isize L + isize O) HL Rr N2 E1) by ((rewrite !app_length, !le_length; cbn [length csr_magic]; change (isize u8) with 1; lia) || lia). cbn [bind].
    rewrite app_assoc in E1. replace (13 + isize L + isize O + isize L) with (13 + 2 * isize L + isize O) by lia.
    rewrite (rd_field L _ _ _ b k z pg fn (13 + 2 * isize L + isize O) HL Rc N3 E1) by ((rewrite !app_length, !le_length; cbn [length csr_magic]; change (isize u8) with 1; lia) || lia). cbn [bind].
    replace (13 + 2 * isize L + isize O + isize L) with (13 + 3 * isize L + isize O) by lia.
    reflexivity. }
  assert (Hm0 : (0 <= m')%Z) by (unfold m', left; apply Z.mod_pos_bound, Z.pow_pos_nonneg; lia).
  assert (Hn0 : (0 <= n' <= cs_n c)%Z) by (unfold n', left; split; [apply Z.mod_pos_bound, Z.pow_pos_nonneg; lia|apply Z.mod_le; [exact N1|apply Z.pow_pos_nonneg; lia]]).
  assert (HR' : room L n') by (destruct HR as [R1 R2]; split; [lia|destruct R2; [left; assumption|right; lia]]).
  set (n1 := Z.to_nat (n' + 1)) in *.
  set (mm := Z.to_nat m') in *. assert (Em : m' = Z.of_nat mm) by (unfold mm; lia).
  assert (Ew : size = 13 + 3 * isize L + isize O + isize O * n1 + isize L * mm + weight_size (wbin wm) mm).
  { unfold size. destruct wm as [w|]; cbn [wbin option_map weight_size]; lia. }
  assert (Hcw : match wbin wm with None => True | Some cd => 0 < cd_size cd end) by (destruct wm; exact Hcd).
  split; intros HS; rewrite EO.
  - rewrite Em. rewrite (csr_tail_cut L O (wbin wm) n' _ _ mm s z pg fn) by (auto; rewrite ?Ls; try fold n1; lia). cbn [bind]. fold n1.
    assert (HA : forall {V} (cd : codec V) q p, 13 + 3 * isize L + isize O <= p -> p + cd_size cd * q <= k + z ->
      array_at cd q p (s ++ repeat 0%Z z) = repeat (Some (cd_dec cd (repeat 0%Z (cd_size cd)))) q).
    { intros V cd q p Hp1 Hp2. unfold array_at. rewrite skipn_app, skipn_all2 by lia. cbn [app]. rewrite Ls.
      replace z with ((p - k) + (z - (p - k))) by lia. rewrite repeat_app, skipn_app, skipn_all2 by (rewrite repeat_length; lia).
      rewrite repeat_length, Nat.sub_diag. cbn [app skipn]. rewrite values_zeros by lia. apply repeat_map. }
    assert (HZ : forall t, is_ity t -> cd_dec (cint t) (repeat 0%Z (isize t)) = 0%Z).
    { clear. intros t Ht. unfold is_ity in Ht. cbn [In] in Ht. repeat (destruct Ht as [<-|Ht]; [vm_compute; reflexivity|]). destruct Ht. }
    pose proof (HZ L HL) as ZL. pose proof (HZ O HO) as ZO.
    rewrite (HA _ (cint O)) by (cbn [cint cd_size]; lia). rewrite (HA _ (cint L)) by (cbn [cint cd_size]; lia). cbn [cint cd_size] in ZL, ZO |- *. rewrite ZL, ZO.
    destruct wm as [w|]; cbn [wbin option_map weight_size] in *; [|reflexivity]. rewrite HA by lia. reflexivity.
  - unfold csr_tail, csr_alloc, alloc. rewrite (plus1_ok L _ HL (proj1 Hn0) HR'). destruct (Z.ltb_spec m' 0); [lia|]. cbn [bind]. fold mm.
    assert (EA : (if is_some (wbin wm) then Ok (fresh mm) else Ok []) = Ok (if is_some (wbin wm) then @fresh W mm else [])) by (destruct (wbin wm); reflexivity).
    rewrite EA. cbn [bind]. destruct (Z.ltb_spec (n' + 1) 0); [lia|]. cbn [bind]. fold n1.
    match goal with |- context [rd_array (cint O) ?l ?v (lc_b1 ch) ?f] =>
      destruct (rd_array_cases (cint O) l v (lc_b1 ch) f) as [->|(x & -> & HA1)] end;
      [assumption|cbn [rf_mem page]; lia|cbn [rf_mem rf_fp]; fold M; lia|reflexivity|].
    cbn [bind]. cbn [rf_mem rf_fp rf_name] in *. fold M in HA1.
    match goal with |- context [rd_array (cint L) ?l ?v (lc_b2 ch) ?f] =>
      destruct (rd_array_cases (cint L) l v (lc_b2 ch) f) as [->|(y & -> & HA2)] end;
      [assumption|cbn [rf_mem page]; lia|cbn [rf_mem rf_fp]; fold M; lia|reflexivity|].
    cbn [bind]. cbn [rf_mem rf_fp rf_name] in *. fold M in HA2.
    match goal with |- context [get_weights (wbin wm) ?l mm (lc_b3 ch) ?f] =>
      destruct (get_weights_cases (wbin wm) l mm (lc_b3 ch) f) as [->|(w & -> & HA3)] end;
      [assumption|cbn [rf_mem page]; lia|cbn [rf_mem rf_fp]; fold M; lia|reflexivity|].
    cbn [rf_mem rf_fp rf_name] in *. fold M in HA3. exfalso. lia.
Qed.
Print Assumptions C47_header_csr.

(** Two vertices, two edges: cut after 24 bytes, the CSR still has two vertices
    and two edges, and all offsets are zero; cut after 14, no edges. *)
Definition ex_ch_csr : csr unit := mkCsr [Some 0%Z; Some 1%Z; Some 2%Z] [Some 1%Z; Some 0%Z] [] 2%Z 2%Z (Some 2%Z) (Some 2%Z).
Definition ex_chc_bytes : list byte :=
  (chars "PIGO-CSR-v2" ++ [4; 4;  2; 0; 0; 0;  2; 0; 0; 0;  2; 0; 0; 0;  2; 0; 0; 0;  0; 0; 0; 0;  1; 0; 0; 0;  2; 0; 0; 0;  1; 0; 0; 0;  0; 0; 0; 0])%Z%list.
Example C47_header_csr_applies :
  csr_layout u32 u32 None ex_ch_csr = map Some ex_chc_bytes /\
  csr_open (W:=unit) u32 u32 None 64 (chars "a.bin") (Some (firstn 9 ex_chc_bytes)) PIGO_CSR_BIN ex_ch_l = Throw EError /\
  csr_open (W:=unit) u32 u32 None 64 (chars "a.bin") (Some (firstn 14 ex_chc_bytes)) AUTO ex_ch_l =
    Ok (mkCsr [Some 0%Z; Some 0%Z; Some 0%Z] [] [] 2%Z 0%Z (Some 0%Z) (Some 0%Z)) /\
  csr_open (W:=unit) u32 u32 None 64 (chars "a.bin") (Some (firstn 24 ex_chc_bytes)) AUTO ex_ch_l =
    Ok (mkCsr [Some 0%Z; Some 0%Z; Some 0%Z] [Some 0%Z; Some 0%Z] [] 2%Z 2%Z (Some 2%Z) (Some 0%Z)).
Proof.
  assert (H32 : is_ity u32) by (cbn; auto).
  assert (EL : csr_layout u32 u32 None ex_ch_csr = map Some ex_chc_bytes) by (vm_compute; reflexivity).
  assert (F2 : fit u32 (Some 2%Z)) by (exists 2%Z; split; reflexivity).
  assert (HT : teams ex_ch_l) by (unfold teams; cbn; lia).
  assert (HR : room u32 2) by (split; [vm_compute; discriminate|right; vm_compute; reflexivity]).
  assert (H9 : 9 <= 12) by lia.
  split; [exact EL|]. split; [|split].
  - apply (C47_short_csr u32 u32 None ex_ch_csr 64 (chars "a.bin") PIGO_CSR_BIN ex_ch_l ex_chc_bytes 9 H32 H32 F2 F2 ltac:(lia) (or_introl eq_refl) EL H9).
  - destruct (C47_header_csr u32 u32 None ex_ch_csr 2 2 64 (chars "a.bin") AUTO ex_ch_l ex_chc_bytes 14 H32 H32 eq_refl eq_refl
      ltac:(repeat split) HR ltac:(cbn; lia) I HT ltac:(vm_compute; lia) (or_introl eq_refl) EL ltac:(lia) ltac:(vm_compute; lia)) as [H _].
    apply H. vm_compute. lia.
  - destruct (C47_header_csr u32 u32 None ex_ch_csr 2 2 64 (chars "a.bin") AUTO ex_ch_l ex_chc_bytes 24 H32 H32 eq_refl eq_refl
      ltac:(repeat split) HR ltac:(cbn; lia) I HT ltac:(vm_compute; lia) (or_introl eq_refl) EL ltac:(lia) ltac:(vm_compute; lia)) as [H _].
    apply H. vm_compute. lia.
Qed.
