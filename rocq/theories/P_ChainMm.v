(** * Property C69: chains of conversions that begin with a Matrix Market file

    The dimensions announced in the file survive the binary format, not the text
    of an edge list. *)

From Coq Require Import String Permutation Sorted.
From Verif Require Import Base Reader ReaderLemmas Sched SchedLemmas Spec SpecDec SpecFp SpecText SpecMm Coo Ascii Csr CooLemmas WeightLemmas ElSpec ElFinal ElThms ElExamples AsciiLemmas WriteLemmas TextRound
  SpecCsr SpecPipe CsrLemmas CsrMain CsrBack CsrSort CsrQuery Codec Bin SpecBin BinLemmas BinSave BinLoad Graph Load BinOpen MmLemmas P_Text P_Bin P_Mm P_Csr P_Pipe P_CrashText P_Chain.
Open Scope list_scope.
Notation length := List.length.

(** A believed header, without flags: as many data lines as announced, and no
    label beyond the announced dimensions. *)
Definition honest (f : mm_file) : Prop :=
  dval (mm_z f) = Z.of_nat (length (el_pairs (mm_body f))) /\
  Forall (fun p => fst p <= dval (mm_r f) /\ snd p <= dval (mm_c f))%Z (el_pairs (mm_body f)).

Lemma mode_mm W wm reads fm tw ok rd L O f ws pg fn ft ch : mode W wm reads fm tw ok rd -> reads (mm_body f) ws ->
  is_ity L -> is_ity O -> wf_mm f -> honest f -> (dval (mm_r f) < imax L)%Z -> (dval (mm_c f) < imax L)%Z ->
  (Z.of_nat (length (el_pairs (mm_body f))) <= imax O)%Z -> off_page pg (mm_text f) -> as_mm ft fn -> 1 <= lc_T ch ->
  coo_open L O wm no_flags pg fn (Some (mm_text f)) ft ch = mm_check O no_flags f (el_result (wtext wm) no_flags (mm_body f) ws).
Proof.
  intros HM Hr HL HO Hf (Hz & HD) Br Bc Hm Hpg Hg HT.
  pose proof (mode_pairs _ _ _ _ _ _ _ _ _ HM Hr) as Hl.
  assert (Hl' : length ws = length (el_lines (mm_body f))) by (rewrite Hl; unfold el_pairs; apply map_length).
  assert (Hlt : length (triples (mm_body f) ws) = length (el_pairs (mm_body f))) by (pose proof (triples_pairs (mm_body f) ws Hl) as E; apply (f_equal (@length _)) in E; unfold pairs in E; rewrite map_length in E; exact E).
  assert (HF : mm_fits L O no_flags f (triples (mm_body f) ws)).
  { unfold mm_fits. rewrite stored_no_flags, Hlt. split; [exact Br|]. split; [exact Bc|]. split; [lia|]. split; [|split; [exact Hm|discriminate]].
    unfold labels_fit. eapply Forall_impl; [|exact HD]. cbn beta. intros p Hp. lia. }
  destruct HM as [|k fm tw ok rd ex bc Hww].
  - rewrite (mm_gen L O None no_flags f ws pg fn ft ch HL HO Hf Hpg Hg HT Hl' HF I); [reflexivity| |left; reflexivity].
    clear - Hl'. revert ws Hl'. generalize (el_lines (mm_body f)). intros ls ws. revert ls. induction ws as [|w ws IH]; intros [|l ls] H; try discriminate; constructor; [exact I|]. apply IH. injection H as H. exact H.
  - destruct (ww_facts _ _ _ _ _ _ Hww) as [Hk _]. rewrite (mm_gen L O (Some (mkWmode _ (wreader k) bc)) no_flags f ws pg fn ft ch HL HO Hf Hpg Hg HT Hl' HF); [reflexivity| | |].
    + cbn [wtext option_map wm_text owend]. apply wend_kind; exact Hk.
    + cbn [wtext option_map wm_text owok]. clear - Hr Hk. unfold weights_are in Hr. induction Hr; constructor; [apply wok_wpost; assumption|assumption].
    + right. left. apply Forall_forall. intros e _. destruct e as [[x y] w]. cbv [keeps]. cbn. discriminate.
Qed.

Theorem C69_mm_chain : forall W wm reads fm tw ok rd L O (P : W -> Prop) f ws pg fn ft ch tx ty tm pg1 fn1 ft1 ch1 parts sched pg2 fn2 ft2 ch2,
  mode W wm reads fm tw ok rd -> is_ity L -> is_ity O ->
  wf_mm f -> honest f -> reads (mm_body f) ws -> el_pairs (mm_body f) <> [] ->
  (dval (mm_r f) < imax L)%Z -> (dval (mm_c f) < imax L)%Z -> labels_fit (imax L - 2) (mm_body f) ->
  (Z.of_nat (length (el_pairs (mm_body f))) <= imax O)%Z ->
  Forall ok ws -> storable wm P ws ->
  off_page pg (mm_text f) -> as_mm ft fn -> 1 <= lc_T ch ->
  1 <= fst tx -> 1 <= fst ty -> 1 <= fst tm -> teams ch1 -> ft1 = AUTO \/ ft1 = PIGO_COO_BIN ->
  let es := triples (mm_body f) ws in
  concat parts = seq 0 (length es) ->
  off_page pg2 (coo_text dec tw es) -> read_as_text ft2 fn2 -> 1 <= lc_T ch2 ->
  exists c w s c',
    coo_open L O wm no_flags pg fn (Some (mm_text f)) ft ch = Ok c /\ holds c es /\
    dims c (dval (mm_r f) + 1) (dval (mm_c f) + 1) /\
    coo_save L O (wbin wm) c tx ty tm = Ok w /\ contents w s /\
    coo_open L O wm no_flags pg1 fn1 (Some s) ft1 ch1 = Ok c /\
    coo_write (fmt_int L) fm c parts sched = Ok (coo_text dec tw es) /\
    coo_open L O wm no_flags pg2 fn2 (Some (coo_text dec tw es)) ft2 ch2 = Ok c' /\
    holds c' (map (fun e => (fst e, rd (snd e))) es) /\
    (is_some wm = true -> holds_weights c' (map (fun e => (fst e, rd (snd e))) es)) /\
    dims c' (max_of (map fst (el_pairs (mm_body f))) + 1) (max_of (map snd (el_pairs (mm_body f))) + 1).
Proof.
  intros W wm reads fm tw ok rd L O P f ws pg fn ft ch tx ty tm pg1 fn1 ft1 ch1 parts sched pg2 fn2 ft2 ch2
    HM HL HO Hf Hho Hr Hne Br Bc Hfit Hm Hok Hst Hpg Hft HT T1 T2 T3 Hch1 Hft1 es Hp Hpg2 Hft2 HT2.
  pose proof (mode_pairs _ _ _ _ _ _ _ _ ws HM Hr) as Hl. pose proof (imax_2 L HL) as H2.
  pose proof Hf as (_ & _ & [_ Dr] & _ & [_ Dc] & _ & _ & _ & Hb).
  pose proof (dval_nonneg _ Dr) as Nr. pose proof (dval_nonneg _ Dc) as Nc.
  pose proof (mode_mm W wm reads fm tw ok rd L O f ws pg fn ft ch HM Hr HL HO Hf Hho Br Bc Hm Hpg Hft HT) as Ec.
  assert (Hes : map fst es = el_pairs (mm_body f)) by (apply triples_pairs; exact Hl).
  assert (Hlt : length es = length (el_pairs (mm_body f))) by (rewrite <- Hes; symmetry; apply map_length).
  assert (HM1 : (max_of (map (fun e => fst (fst e)) es) <= dval (mm_r f))%Z).
  { rewrite <- (map_map fst fst es), Hes. apply max_below; [exact Nr|]. rewrite Forall_map. eapply Forall_impl; [|exact (proj2 Hho)]. cbn beta. intros p Q. apply Q. }
  assert (HM2 : (max_of (map (fun e => snd (fst e)) es) <= dval (mm_c f))%Z).
  { rewrite <- (map_map fst snd es), Hes. apply max_below; [exact Nc|]. rewrite Forall_map. eapply Forall_impl; [|exact (proj2 Hho)]. cbn beta. intros p Q. apply Q. }
  set (c := mkCoo (map (fun e => Some (fst (fst e))) es) (map (fun e => Some (snd (fst e))) es)
       (match wtext wm with None => [] | Some _ => map (fun e => Some (snd e)) es end)
       (Some (if (dval (mm_c f) + 1 <? dval (mm_r f) + 1)%Z then (dval (mm_r f) + 1)%Z else (dval (mm_c f) + 1)%Z))
       (Some (dval (mm_r f) + 1)%Z) (Some (dval (mm_c f) + 1)%Z) (Z.of_nat (length es)) : coo W).
  assert (Ec' : mm_check O no_flags f (el_result (wtext wm) no_flags (mm_body f) ws) = Ok c).
  { unfold mm_check, mm_check_with, el_result. cbn [co_nrows co_ncols co_m co_x co_y co_w]. rewrite counted_no_flags, stored_no_flags. fold es.
    destruct (Z.ltb_spec (dval (mm_r f) + 1) (1 + max_of (map (fun e => fst (fst e)) es))); [lia|].
    destruct (Z.ltb_spec (dval (mm_c f) + 1) (1 + max_of (map (fun e => snd (fst e)) es))); [lia|].
    cbn [no_flags f_sym f_sl bind]. rewrite (proj1 Hho), <- Hlt, Z.eqb_refl. reflexivity. }
  rewrite Ec' in Ec.
  pose proof (result_full L O wm P (mm_body f) ws HL HO Hb Hl Hfit Hm Hst) as (_ & _ & _ & F4 & F5 & F6 & F7).
  assert (Hfull : coo_full L O (wbin wm) P c).
  { unfold el_result in F4, F5, F6, F7. cbn [co_m co_x co_y co_w] in F4, F5, F6, F7. rewrite stored_no_flags in F4, F5, F6, F7. fold es in F4, F5, F6, F7.
    unfold coo_full, c. cbn [co_nrows co_ncols co_n co_m co_x co_y co_w].
    split; [apply fit_some, in_type; [exact HL|lia]|]. split; [apply fit_some, in_type; [exact HL|lia]|].
    split; [apply fit_some, in_type; [exact HL|destruct (Z.ltb_spec (dval (mm_c f) + 1) (dval (mm_r f) + 1)); lia]|]. split; [exact F4|]. split; [exact F5|]. split; [exact F6|exact F7]. }
  assert (Hshape : coo_shape (wbin wm) c).
  { pose proof (result_shape wm (mm_body f) ws) as (S1 & S2 & S3). unfold el_result in S1, S2, S3. cbn [co_m co_x co_y co_w] in S1, S2, S3. rewrite stored_no_flags in S1, S2, S3. fold es in S1, S2, S3.
    unfold coo_shape, c. cbn [co_m co_x co_y co_w]. split; [exact S1|]. split; [exact S2|exact S3]. }
  destruct (C15_coo_round_trip L O wm P no_flags c tx ty tm pg1 fn1 ft1 ch1 HL HO Hshape Hfull T1 T2 T3 Hch1 Hft1) as (w & s & Es & Hs & Er).
  assert (Hh : holds c es) by (repeat split).
  assert (Hw : is_some wm = true -> holds_weights c es) by (intros E; unfold holds_weights, c; cbn [co_w]; destruct wm as [[wt wb]|]; [reflexivity|discriminate]).
  assert (HF : Forall (label_ok L) es).
  { apply Forall_forall. intros e He. assert (Hi : In (fst e) (el_pairs (mm_body f))) by (rewrite <- Hes; apply in_map; exact He).
    pose proof (pairs_nonneg _ Hb) as H0. unfold labels_fit in Hfit. rewrite Forall_forall in H0, Hfit. specialize (H0 _ Hi). specialize (Hfit _ Hi). cbn beta in H0, Hfit.
    unfold label_ok. lia. }
  assert (HW : Forall (fun e => ok (snd e)) es) by (rewrite <- Forall_map; unfold es; rewrite (triples_weights _ ws Hl); exact Hok).
  assert (Hne' : es <> []) by (intros E; apply Hne; rewrite <- Hes, E; reflexivity).
  destruct (mode_file _ _ _ _ _ _ _ L es HM HF HW) as (G1 & G2 & G3 & G4 & G5). cbv zeta in G1, G2, G3, G4, G5.
  set (f2 := file_of tw es) in *. set (ws2 := map (fun e => rd (snd e)) es) in *.
  exists c, w, s, (el_result (wtext wm) no_flags f2 ws2).
  split; [exact Ec|]. split; [exact Hh|]. split.
  { unfold dims, c. cbn [co_nrows co_ncols co_n]. split; [reflexivity|]. split; [reflexivity|]. destruct (Z.ltb_spec (dval (mm_c f) + 1) (dval (mm_r f) + 1)); f_equal; lia. }
  split; [exact Es|]. split; [exact Hs|]. split; [exact Er|]. split.
  { eapply mode_write; eauto. }
  split.
  { rewrite <- G1. eapply mode_open; eauto.
    - unfold labels_fit. rewrite G4, Hes. exact Hfit.
    - rewrite G4, Hes. exact Hm.
    - rewrite G1. exact Hpg2.
    - rewrite G1. apply text_not_pigo. exact Hft2. }
  destruct (mode_holds wm f2 ws2) as [Hh2 Hw2]. rewrite G5 in Hh2, Hw2. split; [exact Hh2|]. split; [exact Hw2|].
  unfold dims, el_result. cbn [co_nrows co_ncols co_n]. rewrite counted_no_flags, G5, !map_map. cbn [fst snd].
  rewrite <- Hes, !map_map. split; [f_equal; lia|]. split; [f_equal; lia|]. f_equal. lia.
Qed.
Print Assumptions C69_mm_chain.

(** Announced 9 rows and columns, largest label 3: the COO read from the text
    written has 4 rows, that read from the binary file 10. *)
Definition ex_mm9 : mm_file :=
  mkMm (bs " pattern general") [] (bs "9") (bs " ") (bs "9") (bs " ") (bs "3") [] (mm_body ex_mm).
Example C69_mm_applies : exists (c : coo unit) w s (c' : coo unit),
  honest ex_mm9 /\
  coo_open u8 u16 None no_flags 64 (chars "a.mtx") (Some (mm_text ex_mm9)) AUTO ex_mm_teams = Ok c /\ dims c 10 10 /\
  coo_save u8 u16 None c (2, [1; 0; 1]) (1, []) (3, []) = Ok w /\ contents w s /\
  coo_open u8 u16 None no_flags 32 (chars "a.bin") (Some s) AUTO ex_pch = Ok c /\
  coo_write (fmt_int u8) None c [[0]; [1; 2]] [1; 0] = Ok (coo_text dec None [(1, 2, tt); (3, 3, tt); (2, 1, tt)]%Z) /\
  coo_open u8 u16 None no_flags 64 (chars "b.el") (Some (coo_text dec None [(1, 2, tt); (3, 3, tt); (2, 1, tt)]%Z)) AUTO ex_pch = Ok c' /\ dims c' 4 4.
Proof.
  assert (H8 : is_ity u8) by (cbn; auto). assert (H16 : is_ity u16) by (cbn; auto).
  assert (EP : el_pairs (mm_body ex_mm9) = [(1, 2); (3, 3); (2, 1)]%Z) by reflexivity.
  assert (Hho : honest ex_mm9).
  { split; [reflexivity|]. rewrite EP. repeat (apply Forall_cons; [split; vm_compute; discriminate|]). apply Forall_nil. }
  destruct (C69_mm_chain unit None _ None None _ _ u8 u16 (fun _ => True) ex_mm9 (no_weights (mm_body ex_mm9)) 64 (chars "a.mtx") AUTO ex_mm_teams
    (2, [1; 0; 1]) (1, []) (3, []) 32 (chars "a.bin") AUTO ex_pch [[0]; [1; 2]] [1; 0] 64 (chars "b.el") AUTO ex_pch mode_plain H8 H16) as (c & w & s & c' & E1 & E2 & E3 & E4 & E5 & E6 & E7 & E8 & E9 & _ & E10); auto.
  all: try (match goal with |- (_ <= _)%nat => cbn; lia end).
  - destruct ex_mm_wf as (A1 & _ & A3 & A4 & A5 & A6 & A7 & A8 & A9). split; [exact A1|]. split; [apply gap_nil|].
    split; [split; [discriminate|repeat constructor]|]. split; [exact A4|]. split; [split; [discriminate|repeat constructor]|]. split; [exact A6|]. split; [exact A7|]. split; [exact A8|exact A9].
  - discriminate.
  - vm_compute; reflexivity.
  - vm_compute; reflexivity.
  - unfold labels_fit. rewrite EP. repeat (apply Forall_cons; [split; vm_compute; discriminate|]). apply Forall_nil.
  - vm_compute. discriminate.
  - apply Forall_forall. intros; exact I.
  - exact I.
  - split; [lia|]. vm_compute. discriminate.
  - right; split; [reflexivity|exists (chars "a"); reflexivity].
  - exact ex_pf_teams.
  - split; [lia|]. vm_compute. discriminate.
  - right. split; [reflexivity|]. split; intros (p & E); apply (f_equal (@rev _)) in E; rewrite rev_app_distr in E; discriminate.
  - exists c, w, s, c'. auto 12.
Qed.
