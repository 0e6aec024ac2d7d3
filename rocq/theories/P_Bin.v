(** * Properties C15-C21, C27, C40, C46, C47: binary files *)

From Coq Require Import String.
From Verif Require Import Base Reader Sched Coo Ascii Csr SpecCsr CsrLemmas Codec Bin SpecBin BinLemmas BinSave BinLoad Graph Load Tensor BinOpen.
Open Scope list_scope.

(** The parallel regions of a load have at least one thread. *)
Definition teams (ch : lchoice) : Prop := 1 <= fst (lc_b1 ch) /\ 1 <= fst (lc_b2 ch) /\ 1 <= fst (lc_b3 ch).

Lemma begins_app b p magic : begins b magic -> begins (b ++ p) magic.
Proof. intros (x & r & ->). exists x, (r ++ p). rewrite <- app_assoc. reflexivity. Qed.

Lemma wfit_sized {W} (wc : option (codec W)) P l : wfit wc P l -> wsized wc.
Proof. destruct wc as [c|]; cbn [wfit wsized]; [|trivial]. intros (H & _). exact (faithful_weak _ _ _ (fun _ _ => ltac:(assumption)) H) || (eapply faithful_weak; [|exact H]; cbn; tauto). Qed.

Lemma coo_begins {W} L O (wc : option (codec W)) c b : is_ity L -> coo_layout L O wc c = map Some b -> begins b (chars "PIGO-COO-v1").
Proof. intros HL E. eapply layout_begins; [rewrite <- E; unfold coo_layout; reflexivity|]. discriminate. Qed.
Lemma csr_begins {W} L O (wc : option (codec W)) c b : csr_layout L O wc c = map Some b -> begins b (chars "PIGO-CSR-v2").
Proof. intros E. eapply layout_begins; [rewrite <- E; unfold csr_layout; reflexivity|]. discriminate. Qed.
Lemma digraph_begins {W} L O (wc : option (codec W)) c d b : digraph_layout L O wc c d = map Some b -> begins b (chars "PIGO-DiGraph-v1").
Proof. intros E. eapply layout_begins; [rewrite <- E; unfold digraph_layout; reflexivity|]. discriminate. Qed.
Lemma tensor_begins {W} L O (wc : option (codec W)) c b : tensor_layout L O wc c = map Some b -> begins b (chars "PIGO-Tensor-2").
Proof. intros E. eapply layout_begins; [rewrite <- E; unfold tensor_layout; reflexivity|]. discriminate. Qed.

(** ** C15 *)
Theorem C15_coo_round_trip : forall {W} L O (wm : option (wmode W)) P fl c tx ty tw pg fn ft ch,
  is_ity L -> is_ity O -> coo_shape (wbin wm) c -> coo_full L O (wbin wm) P c ->
  1 <= fst tx -> 1 <= fst ty -> 1 <= fst tw -> teams ch -> ft = AUTO \/ ft = PIGO_COO_BIN ->
  exists w s, coo_save L O (wbin wm) c tx ty tw = Ok w /\ contents w s /\
    coo_open L O wm fl pg fn (Some s) ft ch = Ok c.
Proof.
  intros W L O wm P fl c tx ty tw pg fn ft ch HL HO Hs Hf T1 T2 T3 (U1 & U2 & U3) Hft.
  destruct (coo_save_ok L O (wbin wm) HL HO (wfit_sized _ P _ ltac:(apply Hf)) c tx ty tw Hs T1 T2 T3) as (w & Ew & Hw & _).
  destruct (coo_read_ok L O (wbin wm) P HL HO c _ _ _ Hs Hf U1 U2 U3) as (b & Eb & Hb & Hr).
  exists w, b. split; [exact Ew|]. split; [eapply contents_of; eassumption|].
  unfold coo_open. rewrite open_reading by exact Hb. cbn [bind]. unfold coo_read.
  rewrite (guess_begins_ft ft _ PIGO_COO_BIN Hft); [|discriminate|eapply (guess_coo b pg fn [] b); [reflexivity|eapply (coo_begins L O); eassumption]].
  cbn [bind]. rewrite (Hr b pg fn [] []); [reflexivity|]. rewrite app_nil_r. reflexivity.
Qed.
Print Assumptions C15_coo_round_trip.

(** ** C16 *)
Theorem C16_csr_round_trip : forall {W} L O (wm : option (wmode W)) P c t_o te tw pg fn ft ch,
  is_ity L -> is_ity O -> csr_shape (wbin wm) c -> csr_full L O (wbin wm) P c -> room L (cs_n c) ->
  1 <= fst t_o -> 1 <= fst te -> 1 <= fst tw -> teams ch -> ft = AUTO \/ ft = PIGO_CSR_BIN ->
  exists w s, csr_save L O (wbin wm) c t_o te tw = Ok w /\ contents w s /\
    csr_open L O wm pg fn (Some s) ft ch = Ok c.
Proof.
  intros W L O wm P c tx ty tw pg fn ft ch HL HO Hs Hf HR T1 T2 T3 (U1 & U2 & U3) Hft.
  destruct (csr_save_ok L O (wbin wm) HL HO (wfit_sized _ P _ ltac:(apply Hf)) c tx ty tw _ Hs (plus1_ok L _ HL (proj1 Hs) HR) eq_refl T1 T2 T3) as (w & Ew & Hw & _).
  destruct (csr_read_ok L O (wbin wm) P HL HO c _ _ _ Hs Hf HR U1 U2 U3) as (b & Eb & Hb & Hr).
  exists w, b. split; [exact Ew|]. split; [eapply contents_of; eassumption|].
  unfold csr_open. rewrite open_reading by exact Hb. cbn [bind]. unfold csr_read.
  rewrite (guess_begins_ft ft _ PIGO_CSR_BIN Hft); [|discriminate|eapply (guess_csr b pg fn [] b); [reflexivity|eapply (csr_begins L O); eassumption]].
  cbn [bind]. unfold csr_direct. rewrite (Hr b pg fn [] []); [reflexivity|]. rewrite app_nil_r. reflexivity.
Qed.
Print Assumptions C16_csr_round_trip.

(** A COO can be built from the file of a CSR and a CSR from the file of a COO:
    the result is that of the in-memory conversion.  The former needs the two
    integer types to have the same size (see C46). *)
Theorem C16_csr_file_to_coo : forall {W} L O (wm : option (wmode W)) P fl c t_o te tw pg fn ft ch,
  is_ity L -> is_ity O -> ibits L = ibits O -> Forall (fit L) (cs_off c) ->
  csr_shape (wbin wm) c -> csr_full L O (wbin wm) P c -> room L (cs_n c) ->
  1 <= fst t_o -> 1 <= fst te -> 1 <= fst tw -> teams ch -> ft = AUTO \/ ft = PIGO_CSR_BIN ->
  exists w s, csr_save L O (wbin wm) c t_o te tw = Ok w /\ contents w s /\
    coo_open L O wm fl pg fn (Some s) ft ch = convert_csr O fl (is_some wm) c (lc_parts ch) (lc_back ch).
Proof.
  intros W L O wm P fl c tx ty tw pg fn ft ch HL HO ELO Fo Hs Hf HR T1 T2 T3 (U1 & U2 & U3) Hft.
  destruct (csr_save_ok L O (wbin wm) HL HO (wfit_sized _ P _ ltac:(apply Hf)) c tx ty tw _ Hs (plus1_ok L _ HL (proj1 Hs) HR) eq_refl T1 T2 T3) as (w & Ew & Hw & _).
  assert (ES : isize L = isize O) by (unfold isize; rewrite ELO; reflexivity).
  destruct (csr_read_os_ok L O (wbin wm) P HL HO L c _ _ _ HL ES Fo Hs Hf HR U1 U2 U3) as (b & Eb & Hb & Hr).
  exists w, b. split; [exact Ew|]. split; [eapply contents_of; eassumption|].
  unfold coo_open. rewrite open_reading by exact Hb. cbn [bind]. unfold coo_read.
  rewrite (guess_begins_ft ft _ PIGO_CSR_BIN Hft); [|discriminate|eapply (guess_csr b pg fn [] b); [reflexivity|eapply (csr_begins L O); eassumption]].
  cbn [bind]. unfold csr_direct. rewrite (Hr b pg fn [] []) by (rewrite app_nil_r; reflexivity). cbn [bind].
  destruct (convert_csr O fl (is_some wm) c (lc_parts ch) (lc_back ch)); reflexivity.
Qed.
Print Assumptions C16_csr_file_to_coo.

Theorem C15_coo_file_to_csr : forall {W} L O (wm : option (wmode W)) P c tx ty tw pg fn ft ch,
  is_ity L -> is_ity O -> coo_shape (wbin wm) c -> coo_full L O (wbin wm) P c ->
  1 <= fst tx -> 1 <= fst ty -> 1 <= fst tw -> teams ch -> ft = AUTO \/ ft = PIGO_COO_BIN ->
  exists w s, coo_save L O (wbin wm) c tx ty tw = Ok w /\ contents w s /\
    csr_open L O wm pg fn (Some s) ft ch = convert_coo L O (is_some wm) c (lc_conv ch).
Proof.
  intros W L O wm P c tx ty tw pg fn ft ch HL HO Hs Hf T1 T2 T3 (U1 & U2 & U3) Hft.
  destruct (coo_save_ok L O (wbin wm) HL HO (wfit_sized _ P _ ltac:(apply Hf)) c tx ty tw Hs T1 T2 T3) as (w & Ew & Hw & _).
  destruct (coo_read_ok L O (wbin wm) P HL HO c _ _ _ Hs Hf U1 U2 U3) as (b & Eb & Hb & Hr).
  exists w, b. split; [exact Ew|]. split; [eapply contents_of; eassumption|].
  unfold csr_open. rewrite open_reading by exact Hb. cbn [bind]. unfold csr_read.
  rewrite (guess_begins_ft ft _ PIGO_COO_BIN Hft); [|discriminate|eapply (guess_coo b pg fn [] b); [reflexivity|eapply (coo_begins L O); eassumption]].
  cbn [bind]. unfold coo_read, used. cbn [bind]. rewrite (Hr b pg fn [] []) by (rewrite app_nil_r; reflexivity). cbn [bind].
  destruct (convert_coo L O (is_some wm) c (lc_conv ch)); reflexivity.
Qed.
Print Assumptions C15_coo_file_to_csr.

(** ** C17 *)
Theorem C17_tensor_round_trip : forall {W} L O (wm : option (wmode W)) P t tc tw pg fn ft ch,
  is_ity L -> is_ity O -> tensor_shape (wbin wm) t -> tensor_full L O (wbin wm) P t ->
  (te_order t * te_m t <= imax O)%Z ->
  1 <= fst tc -> 1 <= fst tw -> teams ch -> ft = AUTO \/ ft = PIGO_TENSOR_BIN ->
  exists w s, tensor_save L O (wbin wm) t tc tw = Ok w /\ contents w s /\
    tensor_open L O wm pg fn (Some s) ft ch = Ok t.
Proof.
  intros W L O wm P t tc tw pg fn ft ch HL HO Hs Hf HR T1 T2 (U1 & U2 & U3) Hft.
  destruct (tensor_save_ok L O (wbin wm) HL HO (wfit_sized _ P _ ltac:(apply Hf)) t tc tw) as (w & Ew & Hw & _); auto.
  { destruct Hf as (_ & _ & _ & Hwf). destruct (wbin wm); [apply Hwf|exact I]. }
  destruct (tensor_read_ok L O (wbin wm) P HL HO t _ _ Hs Hf HR U1 U2) as (b & Eb & Hb & Hr).
  exists w, b. split; [exact Ew|]. split; [eapply contents_of; eassumption|].
  unfold tensor_open. rewrite open_reading by exact Hb. cbn [bind]. unfold tensor_read.
  rewrite (guess_begins_ft ft _ PIGO_TENSOR_BIN Hft); [|discriminate|eapply (guess_tensor b pg fn [] b); [reflexivity|eapply (tensor_begins L O); eassumption]].
  cbn [bind]. rewrite (Hr b pg fn [] []); [reflexivity|]. rewrite app_nil_r. reflexivity.
Qed.
Print Assumptions C17_tensor_round_trip.

(** ** C18 *)
Theorem C18_digraph_round_trip : forall {W} L O (wm : option (wmode W)) P i o t1 t2 t3 t4 t5 t6 pg fn ft ch1 ch2 c1 c2,
  is_ity L -> is_ity O ->
  csr_shape (wbin wm) i -> csr_full L O (wbin wm) P i -> room L (cs_n i) ->
  csr_shape (wbin wm) o -> csr_full L O (wbin wm) P o -> room L (cs_n o) ->
  1 <= fst t1 -> 1 <= fst t2 -> 1 <= fst t3 -> 1 <= fst t4 -> 1 <= fst t5 -> 1 <= fst t6 ->
  teams ch1 -> teams ch2 -> ft = AUTO \/ ft = PIGO_DIGRAPH_BIN ->
  exists w s, digraph_save L O (wbin wm) (i, o) t1 t2 t3 t4 t5 t6 = Ok w /\ contents w s /\
    digraph_open L O wm pg fn (Some s) ft ch1 ch2 c1 c2 = Ok (i, o).
Proof.
  intros W L O wm P i o t1 t2 t3 t4 t5 t6 pg fn ft ch1 ch2 c1 c2 HL HO Si Fi Ri So Fo Ro T1 T2 T3 T4 T5 T6 (U1 & U2 & U3) (V1 & V2 & V3) Hft.
  pose proof (wfit_sized (wbin wm) P _ ltac:(apply Fi)) as HW.
  destruct (digraph_save_ok L O (wbin wm) HL HO HW i o t1 t2 t3 t4 t5 t6 _ _ Si So
    (plus1_ok L _ HL (proj1 Si) Ri) eq_refl (plus1_ok L _ HL (proj1 So) Ro) eq_refl) as (w & Ew & Hw); auto.
  destruct (csr_read_ok L O (wbin wm) P HL HO i _ _ _ Si Fi Ri U1 U2 U3) as (b1 & Eb1 & Hb1 & Hr1).
  destruct (csr_read_ok L O (wbin wm) P HL HO o _ _ _ So Fo Ro V1 V2 V3) as (b2 & Eb2 & Hb2 & Hr2).
  set (s := digraph_magic ++ b1 ++ b2).
  assert (ED : digraph_layout L O (wbin wm) i o = map Some s).
  { unfold digraph_layout, s. rewrite Eb1, Eb2, !map_app. reflexivity. }
  exists w, s. split; [exact Ew|]. split; [eapply contents_of; eassumption|].
  unfold digraph_open. rewrite open_reading by discriminate. cbn [bind]. unfold digraph_read.
  rewrite (guess_begins_ft ft _ PIGO_DIGRAPH_BIN Hft); [|discriminate|eapply (guess_digraph s pg fn [] s); [reflexivity|eapply (digraph_begins L O); eassumption]].
  cbn [bind]. rewrite (rd_str_ok s pg fn [] digraph_magic (b1 ++ b2)); [|reflexivity|destruct b1; [congruence|discriminate]].
  cbn [bind app]. unfold csr_read at 1. cbn [used].
  rewrite (guess_csr s pg fn digraph_magic (b1 ++ b2)); [|reflexivity|apply begins_app; eapply (csr_begins L O); eassumption].
  cbn [bind]. unfold csr_direct at 1. rewrite (Hr1 s pg fn digraph_magic b2) by reflexivity. cbn [bind].
  unfold csr_read. cbn [used].
  rewrite (guess_csr s pg fn (digraph_magic ++ b1) b2); [|unfold s; rewrite app_assoc; reflexivity|eapply (csr_begins L O); eassumption].
  cbn [bind]. unfold csr_direct. rewrite (Hr2 s pg fn (digraph_magic ++ b1) []) by (rewrite app_nil_r; unfold s; rewrite app_assoc; reflexivity). reflexivity.
Qed.
Print Assumptions C18_digraph_round_trip.

(** ** C19: headers that do not match *)

(** The file says other sizes: rejected, whatever follows. *)
Theorem C19_sizes_checked : forall {W} L O (wm : option (wmode W)) fl pg fn ft ch ls os rest,
  is_ity L -> is_ity O -> (0 <= ls < 256)%Z -> (0 <= os < 256)%Z ->
  (ls <> ibits L / 8)%Z \/ (os <> ibits O / 8)%Z ->
  (ft = AUTO \/ ft = PIGO_COO_BIN ->
     coo_open L O wm fl pg fn (Some (chars "PIGO-COO-v1" ++ [ls; os] ++ rest)) ft ch = Throw EError) /\
  (ft = AUTO \/ ft = PIGO_CSR_BIN ->
     csr_open L O wm pg fn (Some (chars "PIGO-CSR-v2" ++ [ls; os] ++ rest)) ft ch = Throw EError) /\
  (ft = AUTO \/ ft = PIGO_TENSOR_BIN ->
     tensor_open L O wm pg fn (Some (chars "PIGO-Tensor-2" ++ [ls; os] ++ rest)) ft ch = Throw EError).
Proof.
  intros W L O wm fl pg fn ft ch ls os rest HL HO Hls Hos Hne.
  assert (ELs : size_byte L = (ibits L / 8)%Z) by (unfold is_ity in HL; cbn [In] in HL; intuition (subst; reflexivity)).
  assert (EOs : size_byte O = (ibits O / 8)%Z) by (unfold is_ity in HO; cbn [In] in HO; intuition (subst; reflexivity)).
  assert (HC : (if negb (ls =? size_byte L)%Z then true else negb (os =? size_byte O)%Z) = true).
  { rewrite ELs, EOs. destruct (Z.eqb_spec ls (ibits L / 8)); cbn [negb]; [|reflexivity]. destruct (Z.eqb_spec os (ibits O / 8)); cbn [negb]; [|reflexivity]. lia. }
  split; [|split]; intros Hft.
  - set (s := chars "PIGO-COO-v1" ++ [ls; os] ++ rest). unfold coo_open. rewrite open_reading by discriminate. cbn [bind]. unfold coo_read.
    rewrite (guess_begins_ft ft _ PIGO_COO_BIN Hft); [|discriminate|eapply (guess_coo s pg fn [] s); [reflexivity|exists ls, (os :: rest); reflexivity]].
    cbn [bind]. unfold coo_read_bin. rewrite (rd_str_ok s pg fn [] coo_magic ([ls; os] ++ rest)); [|reflexivity|discriminate]. cbn [bind].
    rewrite (rd_ok (cint u8) s pg fn ([] ++ coo_magic) [ls] (os :: rest)) by reflexivity. cbn [bind]. rewrite dec_byte by exact Hls.
    rewrite (rd_ok (cint u8) s pg fn (([] ++ coo_magic) ++ [ls]) [os] rest) by reflexivity. cbn [bind]. rewrite dec_byte by exact Hos.
    destruct (negb (ls =? size_byte L)%Z); [reflexivity|]. rewrite HC. reflexivity.
  - set (s := chars "PIGO-CSR-v2" ++ [ls; os] ++ rest). unfold csr_open. rewrite open_reading by discriminate. cbn [bind]. unfold csr_read.
    rewrite (guess_begins_ft ft _ PIGO_CSR_BIN Hft); [|discriminate|eapply (guess_csr s pg fn [] s); [reflexivity|exists ls, (os :: rest); reflexivity]].
    cbn [bind]. unfold csr_direct, csr_read_bin. rewrite (rd_str_ok s pg fn [] csr_magic ([ls; os] ++ rest)); [|reflexivity|discriminate]. cbn [bind].
    rewrite (rd_ok (cint u8) s pg fn ([] ++ csr_magic) [ls] (os :: rest)) by reflexivity. cbn [bind]. rewrite dec_byte by exact Hls.
    rewrite (rd_ok (cint u8) s pg fn (([] ++ csr_magic) ++ [ls]) [os] rest) by reflexivity. cbn [bind]. rewrite dec_byte by exact Hos.
    destruct (negb (ls =? size_byte L)%Z); [reflexivity|]. rewrite HC. reflexivity.
  - set (s := chars "PIGO-Tensor-2" ++ [ls; os] ++ rest). unfold tensor_open. rewrite open_reading by discriminate. cbn [bind]. unfold tensor_read.
    rewrite (guess_begins_ft ft _ PIGO_TENSOR_BIN Hft); [|discriminate|eapply (guess_tensor s pg fn [] s); [reflexivity|exists ls, (os :: rest); reflexivity]].
    cbn [bind]. unfold tensor_read_bin. rewrite (rd_str_ok s pg fn [] tensor_magic ([ls; os] ++ rest)); [|reflexivity|discriminate]. cbn [bind].
    rewrite (rd_ok (cint u8) s pg fn ([] ++ tensor_magic) [ls] (os :: rest)) by reflexivity. cbn [bind]. rewrite dec_byte by exact Hls.
    rewrite (rd_ok (cint u8) s pg fn (([] ++ tensor_magic) ++ [ls]) [os] rest) by reflexivity. cbn [bind]. rewrite dec_byte by exact Hos.
    destruct (negb (ls =? size_byte L)%Z); [reflexivity|]. rewrite HC. reflexivity.
Qed.
Print Assumptions C19_sizes_checked.

(** A saved object is rejected by the constructors of the same class with
    integer types of other sizes. *)
Lemma saved_head (b : list byte) magic (x y : byte) l : map Some b = map Some magic ++ [Some x] ++ [Some y] ++ l ->
  exists rest, b = magic ++ [x; y] ++ rest.
Proof.
  intros E. exists (skipn (length magic + 2) b).
  assert (E1 : firstn (length magic + 2) b = magic ++ [x; y]).
  { apply map_Some_inj. rewrite <- firstn_map, E, !map_app. cbn [map app]. change (Some x :: Some y :: l) with ([Some x; Some y] ++ l). rewrite app_assoc.
    rewrite firstn_exact; [reflexivity|]. rewrite app_length, map_length. reflexivity. }
  rewrite app_assoc, <- E1. symmetry. apply firstn_skipn.
Qed.

Lemma written_contents w l s : wf_data w = ones l -> contents w s -> map Some s = l.
Proof. intros E H. unfold contents in H. rewrite E in H. unfold ones in H. rewrite map_map in H. cbn [fst] in H. rewrite map_id in H. symmetry. exact H. Qed.

Lemma sizeof_byte t : is_ity t -> (0 <= ibits t / 8 < 256)%Z.
Proof. intros H. unfold is_ity in H. cbn [In] in H. intuition (subst; cbn; lia). Qed.

Theorem C19_saved_rejected : forall {W W'} L O L' O' (wm : option (wmode W)) (wc' : option (codec W')) fl pg fn ft ch,
  is_ity L -> is_ity O -> is_ity L' -> is_ity O' -> ibits L' <> ibits L \/ ibits O' <> ibits O -> wsized wc' ->
  (forall c tx ty tw w s, coo_shape wc' c -> 1 <= fst tx -> 1 <= fst ty -> 1 <= fst tw ->
     coo_save L' O' wc' c tx ty tw = Ok w -> contents w s -> ft = AUTO \/ ft = PIGO_COO_BIN ->
     coo_open L O wm fl pg fn (Some s) ft ch = Throw EError) /\
  (forall c t_o te tw w s, csr_shape wc' c -> room L' (cs_n c) -> 1 <= fst t_o -> 1 <= fst te -> 1 <= fst tw ->
     csr_save L' O' wc' c t_o te tw = Ok w -> contents w s -> ft = AUTO \/ ft = PIGO_CSR_BIN ->
     csr_open L O wm pg fn (Some s) ft ch = Throw EError) /\
  (forall t tc tw w s, tensor_shape wc' t -> match wc' with None => True | Some c => cd_size c < 256 end ->
     1 <= fst tc -> 1 <= fst tw ->
     tensor_save L' O' wc' t tc tw = Ok w -> contents w s -> ft = AUTO \/ ft = PIGO_TENSOR_BIN ->
     tensor_open L O wm pg fn (Some s) ft ch = Throw EError).
Proof.
  intros W W' L O L' O' wm wc' fl pg fn ft ch HL HO HL' HO' Hne HW.
  assert (Hne' : (ibits L' / 8 <> ibits L / 8)%Z \/ (ibits O' / 8 <> ibits O / 8)%Z).
  { assert (D : forall a b, is_ity a -> is_ity b -> ibits a <> ibits b -> (ibits a / 8 <> ibits b / 8)%Z).
    { assert (D8 : forall a, is_ity a -> ibits a = (8 * (ibits a / 8))%Z) by (intros a Ha; unfold is_ity in Ha; cbn [In] in Ha; intuition (subst; reflexivity)).
      intros a b Ha Hb Hab E. apply Hab. rewrite (D8 a Ha), (D8 b Hb), E. reflexivity. }
    destruct Hne as [H|H]; [left|right]; apply D; assumption. }
  split; [|split].
  - intros c tx ty tw w s Hs T1 T2 T3 Ew Hc Hft.
    destruct (coo_save_ok L' O' wc' HL' HO' HW c tx ty tw Hs T1 T2 T3) as (w' & Ew' & Hw & _). assert (w' = w) by congruence. subst w'.
    destruct (saved_head s (chars "PIGO-COO-v1") _ _ _ (written_contents _ _ _ Hw Hc)) as (rest & ->).
    apply C19_sizes_checked; auto using sizeof_byte.
  - intros c tx ty tw w s Hs HR T1 T2 T3 Ew Hc Hft.
    destruct (csr_save_ok L' O' wc' HL' HO' HW c tx ty tw _ Hs (plus1_ok L' _ HL' (proj1 Hs) HR) eq_refl T1 T2 T3) as (w' & Ew' & Hw & _). assert (w' = w) by congruence. subst w'.
    destruct (saved_head s (chars "PIGO-CSR-v2") _ _ _ (written_contents _ _ _ Hw Hc)) as (rest & ->).
    apply (C19_sizes_checked L O wm fl); auto using sizeof_byte.
  - intros t tc tw w s Hs Hsz T1 T2 Ew Hc Hft.
    destruct (tensor_save_ok L' O' wc' HL' HO' HW t tc tw Hs T1 T2 Hsz) as (w' & Ew' & Hw & _). assert (w' = w) by congruence. subst w'.
    destruct (saved_head s (chars "PIGO-Tensor-2") _ _ _ (written_contents _ _ _ Hw Hc)) as (rest & ->).
    apply (C19_sizes_checked L O wm fl); auto using sizeof_byte.
Qed.
Print Assumptions C19_saved_rejected.

(** With an explicit file type, a file that does not begin with the right magic
    string (and at least one more byte) is rejected; so is an empty or missing
    one. *)
Theorem C19_magic_checked : forall {W} L O (wm : option (wmode W)) fl pg fn d ch ch' c1 c2,
  (forall s, d = Some s -> ~ begins s (chars "PIGO-COO-v1")) ->
  coo_open L O wm fl pg fn d PIGO_COO_BIN ch = Throw EError /\
  csr_open L O wm pg fn d PIGO_COO_BIN ch = Throw EError /\
  digraph_open L O wm pg fn d PIGO_COO_BIN ch ch' c1 c2 = Throw EError.
Proof.
  intros W L O wm fl pg fn d ch ch' c1 c2 H.
  destruct d as [[|x s]|]; [split; [|split]; reflexivity| |split; [|split]; reflexivity].
  specialize (H _ eq_refl). set (s' := x :: s) in *.
  assert (E : forall fl', coo_read L O wm fl' (reading s' pg fn []) PIGO_COO_BIN ch = Throw EError).
  { intros fl'. unfold coo_read, used. cbn [bind]. unfold coo_read_bin. rewrite (rd_str_no s' pg fn [] s'); [reflexivity|reflexivity|exact H]. }
  unfold coo_open, csr_open, digraph_open. rewrite open_reading by discriminate. cbn [bind]. split; [|split].
  - rewrite E. reflexivity.
  - unfold csr_read, used. cbn [bind]. rewrite E. reflexivity.
  - unfold digraph_read. cbn [used bind]. rewrite E. reflexivity.
Qed.
Print Assumptions C19_magic_checked.

Theorem C19_magic_checked_csr : forall {W} L O (wm : option (wmode W)) fl pg fn d ch,
  (forall s, d = Some s -> ~ begins s (chars "PIGO-CSR-v2")) ->
  csr_open L O wm pg fn d PIGO_CSR_BIN ch = Throw EError /\
  coo_open L O wm fl pg fn d PIGO_CSR_BIN ch = Throw EError.
Proof.
  intros W L O wm fl pg fn d ch H. destruct d as [[|x s]|]; [split; reflexivity| |split; reflexivity].
  specialize (H _ eq_refl). set (s' := x :: s) in *.
  unfold coo_open, csr_open. rewrite open_reading by discriminate. cbn [bind]. split.
  - unfold csr_read, used, csr_direct, csr_read_bin. cbn [bind]. rewrite (rd_str_no s' pg fn [] s'); [reflexivity|reflexivity|exact H].
  - unfold coo_read, used, csr_direct, csr_read_bin. cbn [bind]. rewrite (rd_str_no s' pg fn [] s'); [reflexivity|reflexivity|exact H].
Qed.
Print Assumptions C19_magic_checked_csr.

Theorem C19_magic_checked_others : forall {W} L O (wm : option (wmode W)) pg fn d ch ch' c1 c2,
  ((forall s, d = Some s -> ~ begins s (chars "PIGO-Tensor-2")) -> tensor_open L O wm pg fn d PIGO_TENSOR_BIN ch = Throw EError) /\
  ((forall s, d = Some s -> ~ begins s (chars "PIGO-DiGraph-v1")) -> digraph_open L O wm pg fn d PIGO_DIGRAPH_BIN ch ch' c1 c2 = Throw EError).
Proof.
  intros W L O wm pg fn d ch ch' c1 c2. split; intros H; (destruct d as [[|x s]|]; [reflexivity| |reflexivity]);
    specialize (H _ eq_refl); set (s' := x :: s) in *.
  - unfold tensor_open. rewrite open_reading by discriminate. cbn [bind]. unfold tensor_read, used, tensor_read_bin. cbn [bind].
    rewrite (rd_str_no s' pg fn [] s'); [reflexivity|reflexivity|exact H].
  - unfold digraph_open. rewrite open_reading by discriminate. cbn [bind]. unfold digraph_read, used. cbn [bind].
    rewrite (rd_str_no s' pg fn [] s'); [reflexivity|reflexivity|exact H].
Qed.
Print Assumptions C19_magic_checked_others.

(** ** C20: every byte is stored exactly once, and no other *)
Theorem C20_coo_layout : forall {W} L O (wc : option (codec W)) c tx ty tw,
  is_ity L -> is_ity O -> wsized wc -> coo_shape wc c -> 1 <= fst tx -> 1 <= fst ty -> 1 <= fst tw ->
  exists w, coo_save L O wc c tx ty tw = Ok w /\ written_once w (coo_layout L O wc c) /\
    length (wf_data w) = coo_save_size L O wc c.
Proof.
  intros W L O wc c tx ty tw HL HO HW Hs T1 T2 T3. destruct (coo_save_ok L O wc HL HO HW c tx ty tw Hs T1 T2 T3) as (w & E & Hw & Hl).
  exists w. split; [exact E|]. split; [exact Hw|]. rewrite Hw, ones_length. exact Hl.
Qed.
Print Assumptions C20_coo_layout.

Theorem C20_csr_layout : forall {W} L O (wc : option (codec W)) c t_o te tw,
  is_ity L -> is_ity O -> wsized wc -> csr_shape wc c -> room L (cs_n c) -> 1 <= fst t_o -> 1 <= fst te -> 1 <= fst tw ->
  exists w, csr_save L O wc c t_o te tw = Ok w /\ written_once w (csr_layout L O wc c) /\
    csr_save_size L O wc c = Ok (length (wf_data w)).
Proof.
  intros W L O wc c tx ty tw HL HO HW Hs HR T1 T2 T3.
  destruct (csr_save_ok L O wc HL HO HW c tx ty tw _ Hs (plus1_ok L _ HL (proj1 Hs) HR) eq_refl T1 T2 T3) as (w & E & Hw & Hl).
  exists w. split; [exact E|]. split; [exact Hw|]. rewrite Hw, ones_length. exact Hl.
Qed.
Print Assumptions C20_csr_layout.

Theorem C20_digraph_layout : forall {W} L O (wc : option (codec W)) i o t1 t2 t3 t4 t5 t6,
  is_ity L -> is_ity O -> wsized wc -> csr_shape wc i -> room L (cs_n i) -> csr_shape wc o -> room L (cs_n o) ->
  1 <= fst t1 -> 1 <= fst t2 -> 1 <= fst t3 -> 1 <= fst t4 -> 1 <= fst t5 -> 1 <= fst t6 ->
  exists w, digraph_save L O wc (i, o) t1 t2 t3 t4 t5 t6 = Ok w /\ written_once w (digraph_layout L O wc i o).
Proof.
  intros W L O wc i o t1 t2 t3 t4 t5 t6 HL HO HW Si Ri So Ro T1 T2 T3 T4 T5 T6.
  apply (digraph_save_ok L O wc HL HO HW i o t1 t2 t3 t4 t5 t6 _ _ Si So
    (plus1_ok L _ HL (proj1 Si) Ri) eq_refl (plus1_ok L _ HL (proj1 So) Ro) eq_refl); assumption.
Qed.
Print Assumptions C20_digraph_layout.

Theorem C20_tensor_layout : forall {W} L O (wc : option (codec W)) t tc tw,
  is_ity L -> is_ity O -> wsized wc -> match wc with None => True | Some c => cd_size c < 256 end ->
  tensor_shape wc t -> 1 <= fst tc -> 1 <= fst tw ->
  exists w, tensor_save L O wc t tc tw = Ok w /\ written_once w (tensor_layout L O wc t) /\
    length (wf_data w) = tensor_save_size L O wc t.
Proof.
  intros W L O wc t tc tw HL HO HW Hsz Hs T1 T2. destruct (tensor_save_ok L O wc HL HO HW t tc tw Hs T1 T2 Hsz) as (w & E & Hw & Hl).
  exists w. split; [exact E|]. split; [exact Hw|]. rewrite Hw, ones_length. exact Hl.
Qed.
Print Assumptions C20_tensor_layout.

(** ** C21 *)
Theorem C21_detection : forall pg fn s, s <> [] -> exists f, open_read pg fn 0 (Some s) = Ok f /\
  (begins s (chars "PIGO-COO-v1") -> guess f = Ok PIGO_COO_BIN) /\
  (begins s (chars "PIGO-CSR-v2") -> guess f = Ok PIGO_CSR_BIN) /\
  (begins s (chars "PIGO-DiGraph-v1") -> guess f = Ok PIGO_DIGRAPH_BIN) /\
  (begins s (chars "PIGO-Tensor-2") -> guess f = Ok PIGO_TENSOR_BIN) /\
  (~ begins s (chars "PIGO-COO-v1") -> ~ begins s (chars "PIGO-CSR-v2") ->
   ~ begins s (chars "PIGO-DiGraph-v1") -> ~ begins s (chars "PIGO-Tensor-2") ->
   (begins s (chars "PIGO") -> guess f = Throw EError) /\
   (~ begins s (chars "PIGO") -> ends_in fn (chars ".mtx") -> guess f = Ok MATRIX_MARKET) /\
   (~ begins s (chars "PIGO") -> ~ ends_in fn (chars ".mtx") -> ends_in fn (chars ".graph") -> guess f = Ok GRAPH) /\
   (~ begins s (chars "PIGO") -> ~ ends_in fn (chars ".mtx") -> ~ ends_in fn (chars ".graph") -> guess f = Ok EDGE_LIST)).
Proof.
  intros pg fn s Hs. exists (reading s pg fn []). split; [apply open_reading; exact Hs|].
  split; [intros H; apply (guess_coo s pg fn [] s eq_refl H)|].
  split; [intros H; apply (guess_csr s pg fn [] s eq_refl H)|].
  split; [intros H; apply (guess_digraph s pg fn [] s eq_refl H)|].
  split; [intros H; apply (guess_tensor s pg fn [] s eq_refl H)|].
  intros H1 H2 H3 H4. rewrite (guess_at s pg fn [] s eq_refl).
  apply begins_false in H1, H2, H3, H4. change (chars "PIGO-COO-v1") with coo_magic in H1. change (chars "PIGO-CSR-v2") with csr_magic in H2.
  change (chars "PIGO-DiGraph-v1") with digraph_magic in H3. change (chars "PIGO-Tensor-2") with tensor_magic in H4.
  rewrite H1, H2, H3, H4. change (chars "PIGO") with pigo_magic. change (chars ".mtx") with ext_mtx. change (chars ".graph") with ext_graph.
  assert (N : forall ext, ~ ends_in fn ext -> has_suffix fn ext = false).
  { intros ext He. destruct (has_suffix fn ext) eqn:E; [|reflexivity]. apply has_suffix_spec in E. elim He. exact E. }
  split; [|split; [|split]].
  - intros H. apply begins_dec in H. rewrite H. reflexivity.
  - intros H E. apply begins_false in H. rewrite H. apply has_suffix_spec in E. rewrite E. reflexivity.
  - intros H E1 E. apply begins_false in H. rewrite H. rewrite (N _ E1). apply has_suffix_spec in E. rewrite E. reflexivity.
  - intros H E1 E2. apply begins_false in H. rewrite H. rewrite (N _ E1), (N _ E2). reflexivity.
Qed.
Print Assumptions C21_detection.
