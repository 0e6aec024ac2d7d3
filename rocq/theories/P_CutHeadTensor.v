(** * P_CutHeadTensor: C47, a binary tensor file cut inside its header *)

From Coq Require Import String.
From Verif Require Import Base Reader Sched SchedLemmas CooExec Coo Ascii Csr SpecCsr CsrLemmas Codec Bin SpecBin BinLemmas BinSave BinLoad Graph Load Tensor BinOpen BinBad SpecReweigh Reweigh SpecCut Cut P_Bin P_BinBad P_BinEx CrashRead P_CutHead.
Notation length := List.length.
Open Scope list_scope.

(** At most 14 bytes are left (15 in a weighted file): an error, also when the
    type is detected, unless not even five bytes are left. *)
Theorem C47_short_tensor : forall {W} L O (wm : option (wmode W)) (t : tensor W) pg fn ft ch b k,
  is_ity L -> is_ity O -> match wm with None => True | Some m => 0 < cd_size (wm_bin m) < 256 end -> 16 <= pg ->
  ft = PIGO_TENSOR_BIN \/ (ft = AUTO /\ 5 <= k) ->
  tensor_layout L O (wbin wm) t = map Some b -> k <= 14 + (match wm with None => 0 | Some _ => 1 end) ->
  tensor_open (W:=W) L O wm pg fn (Some (firstn k b)) ft ch = Throw EError.
Proof.
  intros W L O wm t pg fn ft ch b k HL HO Hsz Hpg Hft Eb Hk.
  assert (Hsz' : match wbin wm with None => True | Some c => cd_size c < 256 end) by (destruct wm; [apply Hsz|exact I]).
  destruct (tensor_split L O (wbin wm) t b HL HO Hsz' Eb) as (r & Es & _).
  destruct (Nat.eq_dec k 0) as [->|Hk0]; [reflexivity|].
  assert (Lh := tensor_head_len L O (wbin wm) (te_order t) (te_m t)).
  assert (HSO : 1 <= isize O) by (clear - HO; unfold is_ity in HO; cbn [In] in HO; repeat (destruct HO as [<-|HO]; [cbn; lia|]); destruct HO).
  assert (Lb : 17 + (match wm with None => 0 | Some _ => 1 end) <= length b) by (rewrite Es, app_length, Lh; destruct wm; cbn [wbin option_map]; lia).
  set (s := firstn k b). assert (Ls : length s = k) by (unfold s; rewrite firstn_length; destruct wm; lia).
  assert (Hs : s <> []) by (intros E; rewrite E in Ls; cbn in Ls; lia).
  assert (Em : exists q, b = tensor_magic ++ q) by (rewrite Es; unfold tensor_head; rewrite <- app_assoc; eexists; reflexivity).
  destruct Em as (q & Eq).
  unfold tensor_open. rewrite open_reading by exact Hs. cbn [bind]. unfold tensor_read.
  destruct (Nat.le_gt_cases k 13) as [H13|H13].
  - assert (NT : ~ begins s tensor_magic) by (intros Hb; apply begins_len in Hb; cbn in Hb; lia).
    destruct Hft as [->|[-> H5]].
    + cbn [used bind]. unfold tensor_read_bin. rewrite (rd_str_no s pg fn [] s tensor_magic eq_refl) by exact NT. reflexivity.
    + cbn [used].
      assert (E : s = firstn k tensor_magic).
      { unfold s. rewrite Eq, firstn_app. replace (k - length tensor_magic) with 0 by (cbn; lia). cbn [firstn]. apply app_nil_r. }
      assert (ND : forall mg j x y, nth_error mg j = Some x -> nth_error tensor_magic j = Some y -> x <> y -> ~ begins s mg).
      { intros mg j x y H1 H2 Hxy (c & r' & E'). 
        assert (Hj : j < length mg) by (apply nth_error_Some; congruence).
        assert (A1 : nth_error s j = Some x) by (rewrite E', nth_error_app1 by exact Hj; exact H1).
        assert (Hjk : j < k) by (rewrite <- Ls; apply nth_error_Some; congruence).
        assert (A2 : nth_error s j = Some y).
        { rewrite <- H2, E. clear - Hjk. revert k Hjk. induction tensor_magic as [|u v IH] in j |- *; intros k Hjk; [rewrite firstn_nil; reflexivity|].
          destruct k as [|k]; [lia|]. destruct j as [|j]; [reflexivity|]. cbn [firstn nth_error]. apply IH. lia. }
        congruence. }
      rewrite guess_throws; [reflexivity| | | | |].
      * assert (E5 : exists x u, s = pigo_magic ++ x :: u).
        { rewrite E. clear - H5. do 5 (destruct k as [|k]; [lia|]). cbn. eexists _, _. reflexivity. }
        exact E5.
      * apply (ND _ 5 67%Z 84%Z); [reflexivity|reflexivity|discriminate].
      * apply (ND _ 5 67%Z 84%Z); [reflexivity|reflexivity|discriminate].
      * apply (ND _ 5 68%Z 84%Z); [reflexivity|reflexivity|discriminate].
      * exact NT.
  - assert (Hb : begins s tensor_magic).
    { unfold s. rewrite Eq, firstn_app. rewrite (firstn_all2 tensor_magic) by (cbn; lia).
      destruct (k - length tensor_magic) as [|j] eqn:Ej; [cbn in Ej; lia|]. 
      destruct q as [|x q]; [apply (f_equal (@length byte)) in Eq; cbn in Eq; lia|]. cbn [firstn]. eexists _, _. reflexivity. }
    rewrite (guess_begins_ft ft _ PIGO_TENSOR_BIN); [|destruct Hft as [H|[H _]]; auto|discriminate|apply (guess_tensor s pg fn [] s eq_refl Hb)].
    cbn [bind]. unfold tensor_read_bin. destruct Hb as (x & u & Et).
    rewrite (rd_str_ok s pg fn [] tensor_magic (x :: u) Et) by discriminate. cbn [bind]. unfold reading. cbn [app].
    change (length tensor_magic) with 13.
    pose proof (page_room pg k ltac:(lia) ltac:(lia)) as HP.
    assert (Hk15 : k <= 15) by (destruct wm; lia).
    assert (HE : length s + (16 - k) <= paged pg (length s)) by (rewrite Ls; lia).
    assert (EZ : forall fp, k <= fp -> fp < 16 -> firstn 1 (skipn fp (s ++ repeat 0%Z (16 - k))) = [0%Z]).
    { intros fp H1 H2. rewrite skipn_app, skipn_all2 by lia. cbn [app]. rewrite Ls.
      replace (16 - k) with ((fp - k) + S (15 - fp)) by lia. rewrite repeat_app, skipn_app, skipn_all2 by (rewrite repeat_length; lia).
      rewrite repeat_length, Nat.sub_diag. reflexivity. }
    rewrite (rd_cut (cint u8) s pg fn (16 - k)) by (cbn [cint cd_size]; change (isize u8) with 1; lia). cbn [bind].
    rewrite (rd_cut (cint u8) s pg fn (16 - k)) by (cbn [cint cd_size]; change (isize u8) with 1; lia). cbn [bind].
    cbn [cint cd_size]. change (isize u8) with 1. change (13 + 1) with 14. change (14 + 1) with 15.
    destruct (negb (_ =? size_byte L)%Z); [reflexivity|].
    destruct (Nat.eq_dec k 14) as [H14|H14].
    + rewrite EZ by lia. assert (HZ : (0 =? size_byte O)%Z = false).
      { clear - HO. unfold is_ity in HO. cbn [In] in HO. repeat (destruct HO as [<-|HO]; [reflexivity|]). destruct HO. }
      change (cd_dec (cint u8) [0%Z]) with 0%Z. rewrite HZ. reflexivity.
    + destruct (negb (_ =? size_byte O)%Z); [reflexivity|].
      destruct wm as [w|]; [|lia]. cbn [wbin option_map].
      rewrite (rd_cut (cint u8) s pg fn (16 - k)) by (cbn [cint cd_size]; change (isize u8) with 1; lia). cbn [bind].
      cbn [cint cd_size]. change (isize u8) with 1. rewrite EZ by lia. change (cd_dec (cint u8) [0%Z]) with 0%Z.
      destruct (Z.eqb_spec 0 (Z.of_nat (cd_size (wm_bin w)))); [lia|]. reflexivity.
Qed.
Print Assumptions C47_short_tensor.

(** At least 15 bytes are left (16 in a weighted file), but not the whole header.
    The order and the number of entries lose their upper bytes.  If labels and
    weights for what remains of them lie in the last page, the load succeeds, and
    all labels are zero; otherwise memory outside the mapping is accessed. *)
Theorem C47_header_tensor : forall {W} L O (wm : option (wmode W)) t pg fn ft ch b k,
  is_ity L -> is_ity O -> (inrange O (te_order t) = true /\ inrange O (te_m t) = true) -> (0 <= te_order t /\ 0 <= te_m t)%Z ->
  (te_order t * te_m t <= imax O)%Z ->
  match wm with None => True | Some m => 0 < cd_size (wm_bin m) < 256 end ->
  let hs := 15 + match wm with None => 0 | Some _ => 1 end in
  teams ch -> hs + 2 * isize O <= pg -> ft = AUTO \/ ft = PIGO_TENSOR_BIN ->
  tensor_layout L O (wbin wm) t = map Some b -> hs <= k -> k < hs + 2 * isize O ->
  let left fp := Z.of_nat (k - fp) in
  let order' := (te_order t mod 256 ^ left hs)%Z in
  let m' := (te_m t mod 256 ^ left (hs + isize O)%nat)%Z in
  let size := hs + 2 * isize O + isize L * (Z.to_nat order' * Z.to_nat m') + match wm with None => 0 | Some m => cd_size (wm_bin m) * Z.to_nat m' end in
  (size <= map_len (mkMem (firstn k b) pg) ->
   tensor_open L O wm pg fn (Some (firstn k b)) ft ch =
     Ok (mkTensor (repeat (Some 0%Z) (Z.to_nat order' * Z.to_nat m'))
           (match wm with None => [] | Some m => repeat (Some (cd_dec (wm_bin m) (repeat 0%Z (cd_size (wm_bin m))))) (Z.to_nat m') end)
           order' m')) /\
  (map_len (mkMem (firstn k b) pg) < size -> tensor_open L O wm pg fn (Some (firstn k b)) ft ch = UB).
Proof.
  intros W L O wm t pg fn ft ch b k HL HO (Ro & Rm) (N1 & N2) Hov Hsz hs (U1 & U2 & U3) Hpg Hft Eb Hk Hkp left order' m' size.
  assert (Hsz' : match wbin wm with None => True | Some c => cd_size c < 256 end) by (destruct wm; [apply Hsz|exact I]).
  destruct (tensor_split L O (wbin wm) t b HL HO Hsz' Eb) as (r & Es & _).
  assert (Lh := tensor_head_len L O (wbin wm) (te_order t) (te_m t)).
  assert (Lb : length b = hs + 2 * isize O + length r) by (rewrite Es, app_length, Lh; unfold hs; destruct wm; reflexivity).
  unfold tensor_head, enc in Es. cbn [cint cd_enc] in Es.
  assert (Hhs : 15 <= hs) by (unfold hs; lia).
  set (s := firstn k b). assert (Ls : length s = k) by (unfold s; rewrite firstn_length; lia).
  pose proof (page_room pg k ltac:(lia) ltac:(lia)) as HP.
  set (M := map_len (mkMem s pg)). assert (EM : M = paged pg k) by (unfold M, map_len, flen, paged; cbn [bytes page]; rewrite Ls; reflexivity).
  set (z := M - k). assert (Hz : k + z <= paged pg k) by lia.
  assert (Hz2 : k + z = M) by lia.
  assert (Hb : begins s tensor_magic).
  { unfold s. rewrite Es, <- !app_assoc. rewrite firstn_app, (firstn_all2 tensor_magic) by (cbn; lia).
    destruct (k - length tensor_magic) as [|j] eqn:Ej; [cbn in Ej; lia|]. change (isize u8) with 1. cbn [le app firstn]. eexists _, _. reflexivity. }
  assert (B8 : forall t, is_ity t -> inrange u8 (size_byte t) = true /\ (0 <= size_byte t)%Z).
  { intros t0 Ht. unfold is_ity in Ht. cbn [In] in Ht. repeat (destruct Ht as [<-|Ht]; [vm_compute; split; [reflexivity|discriminate]|]). destruct Ht. }
  destruct (B8 L HL) as [BL1 BL2]. destruct (B8 O HO) as [BO1 BO2].
  assert (H8 : is_ity u8) by (cbn; tauto).
  assert (EO : tensor_open L O wm pg fn (Some s) ft ch =
    ('(x, _) <- tensor_tail L O (wbin wm) order' m' (mkRfile (mkMem s pg) (hs + 2 * isize O) fn) (lc_b1 ch) (lc_b2 ch) ;; Ok x)).
  { unfold tensor_open. rewrite open_reading by (intros E; rewrite E in Ls; cbn in Ls; lia). cbn [bind]. unfold tensor_read.
    rewrite (guess_begins_ft ft _ PIGO_TENSOR_BIN Hft); [|discriminate|apply (guess_tensor s pg fn [] s eq_refl Hb)].
    cbn [bind]. unfold tensor_read_bin. destruct Hb as (x & u & Et).
    rewrite (rd_str_ok s pg fn [] tensor_magic (x :: u) Et) by discriminate. cbn [bind]. unfold reading. cbn [app].
    rewrite <- !app_assoc in Es. unfold s in *.
    assert (E1 := Es).
    rewrite (rd_field u8 _ _ _ b k z pg fn (length tensor_magic) H8 BL1 BL2 E1) by (reflexivity || (cbn [length tensor_magic]; change (isize u8) with 1; lia)). cbn [bind].
    rewrite (app_assoc tensor_magic) in E1.
    rewrite (rd_field u8 _ _ _ b k z pg fn (length tensor_magic + isize u8) H8 BO1 BO2 E1) by ((rewrite app_length, le_length; reflexivity) || (cbn [length tensor_magic]; change (isize u8) with 1; lia)). cbn [bind].
    rewrite (small_mod u8 (size_byte L)) by (auto; cbn; lia). rewrite (small_mod u8 (size_byte O)) by (auto; cbn; lia). rewrite !Z.eqb_refl. cbn [negb].
    change (length tensor_magic + isize u8 + isize u8) with 15.
    rewrite app_assoc in E1.
    match goal with |- context [bind (match wbin wm with _ => _ end) _] => idtac end.
    assert (EW : (f <- match wbin wm with
       | None => Ok (mkRfile (mkMem (firstn k b) pg) 15 fn)
       | Some c =>
           '(ws, f) <- rd (cint u8) (mkRfile (mkMem (firstn k b) pg) 15 fn) ;;
           if negb (ws =? Z.of_nat (cd_size c))%Z then Throw EError else Ok f
       end ;; Ok f) = Ok (mkRfile (mkMem (firstn k b) pg) hs fn)).
    { destruct wm as [w|]; cbn [wbin option_map] in *; [|reflexivity].
      unfold wbyte, enc in E1. cbn [cint cd_enc] in E1.
      assert (Hr8 : inrange u8 (Z.of_nat (cd_size (wm_bin w))) = true) by (unfold inrange; apply andb_true_intro; split; apply Z.leb_le; cbn; lia).
      rewrite (rd_field u8 _ _ _ b k z pg fn 15 H8 Hr8 ltac:(lia) E1) by ((rewrite !app_length, !le_length; reflexivity) || (change (isize u8) with 1; unfold hs in *; lia)). cbn [bind].
      rewrite (small_mod u8) by (auto; change (isize u8) with 1; unfold hs in *; lia). rewrite Z.eqb_refl. cbn [negb bind]. reflexivity. }
    assert (EW' : match wbin wm with
       | None => Ok (mkRfile (mkMem (firstn k b) pg) 15 fn)
       | Some c =>
           '(ws, f) <- rd (cint u8) (mkRfile (mkMem (firstn k b) pg) 15 fn) ;;
           if negb (ws =? Z.of_nat (cd_size c))%Z then Throw EError else Ok f
       end = Ok (mkRfile (mkMem (firstn k b) pg) hs fn)).
    { match type of EW with bind ?X _ = _ => destruct X; exact EW end. }
    rewrite EW'. cbn [bind].
    rewrite app_assoc in E1.
    assert (Lw : length (wbyte (wbin wm)) = match wm with None => 0 | Some _ => 1 end) by (rewrite wbyte_len; destruct wm; reflexivity).
    rewrite (rd_field O _ _ _ b k z pg fn hs HO Ro N1 E1) by ((rewrite !app_length, !le_length, Lw; reflexivity) || lia). cbn [bind].
    rewrite app_assoc in E1.
    rewrite (rd_field O _ _ _ b k z pg fn (hs + isize O) HO Rm N2 E1) by ((rewrite !app_length, !le_length, Lw; reflexivity) || lia). cbn [bind].
    replace (hs + isize O + isize O) with (hs + 2 * isize O) by lia.
    reflexivity. }
  assert (Hm0 : (0 <= m' <= te_m t)%Z) by (unfold m', left; split; [apply Z.mod_pos_bound, Z.pow_pos_nonneg; lia|apply Z.mod_le; [exact N2|apply Z.pow_pos_nonneg; lia]]).
  assert (Ho0 : (0 <= order' <= te_order t)%Z) by (unfold order', left; split; [apply Z.mod_pos_bound, Z.pow_pos_nonneg; lia|apply Z.mod_le; [exact N1|apply Z.pow_pos_nonneg; lia]]).
  assert (Hov' : (order' * m' <= imax O)%Z) by (eapply Z.le_trans; [|exact Hov]; apply Z.mul_le_mono_nonneg; lia).
  set (od := Z.to_nat order') in *. assert (Eod : order' = Z.of_nat od) by (unfold od; lia).
  set (mm := Z.to_nat m') in *. assert (Em : m' = Z.of_nat mm) by (unfold mm; lia).
  assert (Ew : size = hs + 2 * isize O + isize L * (od * mm) + weight_size (wbin wm) mm).
  { unfold size. destruct wm as [w|]; cbn [wbin option_map weight_size]; lia. }
  assert (Hcw : match wbin wm with None => True | Some cd => 0 < cd_size cd end) by (destruct wm; [apply Hsz|exact I]).
  clearbody order' m'. clearbody size.
  split; intros HS; rewrite EO.
  - rewrite Em, Eod. rewrite (tensor_tail_cut L O (wbin wm) od mm s z pg fn) by (auto; rewrite ?Ls; lia). cbn [bind].
    assert (HA : forall {V} (cd : codec V) q p, hs + 2 * isize O <= p -> p + cd_size cd * q <= k + z ->
      array_at cd q p (s ++ repeat 0%Z z) = repeat (Some (cd_dec cd (repeat 0%Z (cd_size cd)))) q).
    { intros V cd q p Hp1 Hp2. unfold array_at. rewrite skipn_app, skipn_all2 by lia. cbn [app]. rewrite Ls.
      replace z with ((p - k) + (z - (p - k))) by lia. rewrite repeat_app, skipn_app, skipn_all2 by (rewrite repeat_length; lia).
      rewrite repeat_length, Nat.sub_diag. cbn [app skipn]. rewrite values_zeros by lia. apply repeat_map. }
    assert (ZL : cd_dec (cint L) (repeat 0%Z (isize L)) = 0%Z).
    { clear - HL. unfold is_ity in HL. cbn [In] in HL. repeat (destruct HL as [<-|HL]; [vm_compute; reflexivity|]). destruct HL. }
    rewrite (HA _ (cint L)) by (cbn [cint cd_size]; lia). cbn [cint cd_size] in ZL |- *. rewrite ZL.
    destruct wm as [w|]; cbn [wbin option_map weight_size] in *; [|reflexivity]. rewrite HA by lia. reflexivity.
  - unfold tensor_tail, tensor_alloc, alloc. rewrite omul_ok by (assumption || lia). cbn [bind].
    destruct (Z.ltb_spec (order' * m') 0); [nia|]. destruct (Z.ltb_spec m' 0); [lia|]. cbn [bind]. fold mm od.
    assert (EA : (if is_some (wbin wm) then Ok (fresh mm) else Ok []) = Ok (if is_some (wbin wm) then @fresh W mm else [])) by (destruct (wbin wm); reflexivity).
    rewrite EA. cbn [bind].
    match goal with |- context [rd_array (cint L) ?l ?v (lc_b1 ch) ?f] =>
      destruct (rd_array_cases (cint L) l v (lc_b1 ch) f) as [->|(x & -> & HA1)] end;
      [assumption|cbn [rf_mem page]; lia|cbn [rf_mem rf_fp]; fold M; lia|reflexivity|].
    cbn [bind]. cbn [rf_mem rf_fp rf_name] in *. fold M in HA1.
    match goal with |- context [get_weights (wbin wm) ?l mm (lc_b2 ch) ?f] =>
      destruct (get_weights_cases (wbin wm) l mm (lc_b2 ch) f) as [->|(w & -> & HA3)] end;
      [assumption|cbn [rf_mem page]; lia|cbn [rf_mem rf_fp]; fold M; lia|reflexivity|].
    cbn [rf_mem rf_fp rf_name] in *. fold M in HA3. exfalso. lia.
Qed.
Print Assumptions C47_header_tensor.

(** Two entries of order two: cut after 20 bytes, the tensor still has two
    entries, and all labels are zero; cut after 16, it has order two and no
    entries; cut after 9, an error. *)
Definition ex_ch_tensor : tensor unit := mkTensor [Some 0%Z; Some 1%Z; Some 5%Z; Some 7%Z] [] 2%Z 2%Z.
Definition ex_cht_bytes : list byte :=
  (chars "PIGO-Tensor-2" ++ [4; 4;  2; 0; 0; 0;  2; 0; 0; 0;  0; 0; 0; 0;  1; 0; 0; 0;  5; 0; 0; 0;  7; 0; 0; 0])%Z%list.
Example C47_header_tensor_applies :
  tensor_layout u32 u32 None ex_ch_tensor = map Some ex_cht_bytes /\
  tensor_open (W:=unit) u32 u32 None 64 (chars "a.bin") (Some (firstn 9 ex_cht_bytes)) AUTO ex_ch_l = Throw EError /\
  tensor_open (W:=unit) u32 u32 None 64 (chars "a.bin") (Some (firstn 16 ex_cht_bytes)) AUTO ex_ch_l = Ok (mkTensor [] [] 2%Z 0%Z) /\
  tensor_open (W:=unit) u32 u32 None 64 (chars "a.bin") (Some (firstn 20 ex_cht_bytes)) PIGO_TENSOR_BIN ex_ch_l =
    Ok (mkTensor [Some 0%Z; Some 0%Z; Some 0%Z; Some 0%Z] [] 2%Z 2%Z).
Proof.
  assert (H32 : is_ity u32) by (cbn; auto).
  assert (EL : tensor_layout u32 u32 None ex_ch_tensor = map Some ex_cht_bytes) by (vm_compute; reflexivity).
  assert (HT : teams ex_ch_l) by (unfold teams; cbn; lia).
  assert (HV : (2 * 2 <= imax u32)%Z) by (vm_compute; discriminate).
  assert (H9 : 9 <= 14 + 0) by lia. assert (H5 : 5 <= 9) by lia. assert (H16 : 16 <= 64) by lia.
  split; [exact EL|]. split; [|split].
  - apply (C47_short_tensor u32 u32 None ex_ch_tensor 64 (chars "a.bin") AUTO ex_ch_l ex_cht_bytes 9 H32 H32 I H16 (or_intror (conj eq_refl H5)) EL H9).
  - destruct (C47_header_tensor u32 u32 None ex_ch_tensor 64 (chars "a.bin") AUTO ex_ch_l ex_cht_bytes 16 H32 H32
      ltac:(repeat split) ltac:(cbn; lia) HV I HT ltac:(vm_compute; lia) (or_introl eq_refl) EL ltac:(vm_compute; lia) ltac:(vm_compute; lia)) as [H _].
    apply H. vm_compute. lia.
  - destruct (C47_header_tensor u32 u32 None ex_ch_tensor 64 (chars "a.bin") PIGO_TENSOR_BIN ex_ch_l ex_cht_bytes 20 H32 H32
      ltac:(repeat split) ltac:(cbn; lia) HV I HT ltac:(vm_compute; lia) (or_intror eq_refl) EL ltac:(vm_compute; lia) ltac:(vm_compute; lia)) as [H _].
    apply H. vm_compute. lia.
Qed.
