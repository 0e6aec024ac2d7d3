(** * Property C33: Matrix Market files *)

From Coq Require Import String.
From Verif Require Import Graph Csr Base Reader ReaderLemmas Sched Spec SpecFp SpecMm Coo CooLemmas WeightLemmas ElSpec ElFinal ElThms ElExamples Codec Bin SpecBin BinLemmas BinSave BinLoad Load BinOpen MmLemmas P_Bin.
Open Scope list_scope.

(** The caller asks for the format, or leaves it to the file name. *)
Definition as_mm (ft : ftype) (fn : list byte) : Prop :=
  ft = MATRIX_MARKET \/ (ft = AUTO /\ ends_in fn (chars ".mtx")).

(** The header is believed: every label that is counted for the dimensions is
    within the announced ones, and so many entries are announced:
    - with the symmetric flag, at most twice the number of entries stored;
    - else, with the flag that removes self loops, at most the number stored;
    - else, exactly the number stored. *)
Definition mm_believed {W} (fl : flags) (f : mm_file) (es : list (Z * Z * W)) : Prop :=
  Forall (fun e => fst (fst e) <= dval (mm_r f) /\ snd (fst e) <= dval (mm_c f))%Z (counted fl es) /\
  let m := Z.of_nat (List.length (stored fl es)) in
  if f_sym fl then (dval (mm_z f) <= 2 * m)%Z
  else if f_sl fl then (dval (mm_z f) <= m)%Z
  else dval (mm_z f) = m.

(** Everything in the file fits the types. *)
Definition mm_fits {W} (L O : ity) (fl : flags) (f : mm_file) (es : list (Z * Z * W)) : Prop :=
  (dval (mm_r f) < imax L)%Z /\ (dval (mm_c f) < imax L)%Z /\ (dval (mm_z f) <= imax O)%Z /\
  labels_fit (imax L - 1) (mm_body f) /\
  (Z.of_nat (List.length (stored fl es)) <= imax O)%Z /\
  (f_sym fl = true -> (2 * Z.of_nat (List.length (stored fl es)) <= imax O)%Z).

Lemma twice_ok O z : is_ity O -> (0 <= 2 * z <= imax O)%Z -> twice O z = Ok (2 * z)%Z.
Proof.
  intros HO H. unfold twice. destruct (Z.ltb_spec (ibits O) 32); [reflexivity|]. pose proof (ity_facts O HO) as (F1 & F2 & _).
  apply arith_in; auto; lia.
Qed.

Lemma mm_ne f : mm_text f <> [].
Proof. unfold mm_text. discriminate. Qed.

Lemma mm_detect pg fn f ft : as_mm ft fn -> used (reading (mm_text f) pg fn []) ft = Ok MATRIX_MARKET.
Proof.
  intros [->|(-> & H2)]; [reflexivity|].
  destruct (C21_detection pg fn (mm_text f) (mm_ne f)) as (g & Eg & _ & _ & _ & _ & HD). rewrite open_reading in Eg by apply mm_ne. injection Eg as <-.
  cbn [used].
  assert (P : forall t, ~ begins (mm_text f) (chars "PIGO" ++ t)).
  { intros t (b & r & E). unfold mm_text in E. cbn [app chars map list_ascii_of_string mm_banner] in E. discriminate. }
  destruct (HD (P (chars "-COO-v1")) (P (chars "-CSR-v2")) (P (chars "-DiGraph-v1")) (P (chars "-Tensor-2"))) as (_ & HE & _).
  apply HE; [|exact H2]. exact (P []).
Qed.

Lemma mm_open {W} L O (wm : option (wmode W)) fl f pg fn ft ch : as_mm ft fn ->
  coo_open L O wm fl pg fn (Some (mm_text f)) ft ch =
  read_mm L O (wtext wm) fl (mkMem (mm_text f) pg) 0 (flen (mkMem (mm_text f) pg)) (lc_T ch) (lc_el ch).
Proof.
  intros Hg. unfold coo_open. rewrite open_reading by apply mm_ne. cbn [bind]. unfold coo_read.
  rewrite (mm_detect pg fn _ ft Hg). cbn [bind]. unfold with_reader. cbn [reading rf_mem rf_fp List.length].
  destruct (read_mm _ _ _ _ _ _ _ _ _); reflexivity.
Qed.

Lemma max_le l b : (0 <= b)%Z -> (max_of l <= b)%Z <-> Forall (fun v => v <= b)%Z l.
Proof.
  intros Hb. induction l as [|x l IH]; cbn [max_of fold_right]; [split; [constructor|intros _; exact Hb]|].
  fold (max_of l). rewrite Forall_cons_iff. rewrite <- IH. lia.
Qed.

Lemma mm_check_spec {W} O (wr : option (wrd W)) fl f ws : is_ity O -> wf_mm f ->
  (f_sym fl = true -> (2 * Z.of_nat (List.length (stored fl (triples (mm_body f) ws))) <= imax O)%Z) ->
  let es := triples (mm_body f) ws in
  (mm_believed fl f es ->
     exists c, mm_check O fl f (el_result wr fl (mm_body f) ws) = Ok c /\
       holds c (stored fl es) /\ (wr <> None -> holds_weights c (stored fl es)) /\
       dims c (dval (mm_r f) + 1) (dval (mm_c f) + 1)) /\
  (~ mm_believed fl f es -> mm_check O fl f (el_result wr fl (mm_body f) ws) = Throw EError).
Proof.
  intros HO (_ & _ & Wr & _ & Wc & _) H2. cbv zeta. set (es := triples (mm_body f) ws) in *.
  pose proof (dval_nonneg _ (proj2 Wr)) as Nr. pose proof (dval_nonneg _ (proj2 Wc)) as Nc.
  assert (ED : Forall (fun e => fst (fst e) <= dval (mm_r f) /\ snd (fst e) <= dval (mm_c f))%Z (counted fl es) <->
     (max_of (map (fun e => fst (fst e)) (counted fl es)) <= dval (mm_r f) /\
      max_of (map (fun e => snd (fst e)) (counted fl es)) <= dval (mm_c f))%Z).
  { rewrite !max_le by assumption. rewrite !Forall_map. generalize (counted fl es). clear. intros l.
    induction l as [|e l IH]; [split; [split; constructor|constructor]|]. rewrite !Forall_cons_iff, IH. tauto. }
  unfold mm_believed. rewrite ED. unfold mm_check, mm_check_with, el_result. cbn [co_nrows co_ncols co_m co_x co_y co_w]. fold es.
  set (a := max_of (map (fun e => fst (fst e)) (counted fl es))) in *. set (b := max_of (map (fun e => snd (fst e)) (counted fl es))) in *. set (m := List.length (stored fl es)) in *. cbv zeta.
  destruct (Z.ltb_spec (dval (mm_r f) + 1) (1 + a)) as [H|H]; [split; [lia|reflexivity]|].
  destruct (Z.ltb_spec (dval (mm_c f) + 1) (1 + b)) as [H'|H']; [split; [lia|reflexivity]|].
  assert (Tw : f_sym fl = true -> twice O (Z.of_nat m) = Ok (2 * Z.of_nat m)%Z).
  { intros E. apply twice_ok; [exact HO|]. specialize (H2 E). lia. }
  assert (Done : forall A, A -> exists c, Ok (mkCoo (map (fun e => Some (fst (fst e))) (stored fl es)) (map (fun e => Some (snd (fst e))) (stored fl es))
      (match wr with None => [] | Some _ => map (fun e => Some (snd e)) (stored fl es) end)
      (Some (if (dval (mm_c f) + 1 <? dval (mm_r f) + 1)%Z then (dval (mm_r f) + 1)%Z else (dval (mm_c f) + 1)%Z))
      (Some (dval (mm_r f) + 1)%Z) (Some (dval (mm_c f) + 1)%Z) (Z.of_nat m)) = Ok c /\
      holds c (stored fl es) /\ (wr <> None -> holds_weights c (stored fl es)) /\
       dims c (dval (mm_r f) + 1) (dval (mm_c f) + 1)).
  { intros A _. eexists. split; [reflexivity|]. split; [repeat split|]. split; [intros Hw; unfold holds_weights; cbn [co_w]; destruct wr; [reflexivity|congruence]|].
    repeat split. cbn [co_n]. destruct (Z.ltb_spec (dval (mm_c f) + 1) (dval (mm_r f) + 1)); f_equal; lia. }
  destruct (f_sym fl) eqn:Es; [|destruct (f_sl fl) eqn:El].
  - rewrite Tw by reflexivity. cbn [bind]. destruct (Z.ltb_spec (2 * Z.of_nat m) (dval (mm_z f))); (split; intros HB; [try lia; exact (Done _ HB)|try reflexivity; lia]).
  - cbn [bind]. destruct (Z.ltb_spec (Z.of_nat m) (dval (mm_z f))); (split; intros HB; [try lia; exact (Done _ HB)|try reflexivity; lia]).
  - cbn [bind]. destruct (Z.eqb_spec (dval (mm_z f)) (Z.of_nat m)); cbn [negb]; (split; intros HB; [try lia; exact (Done _ HB)|try reflexivity; lia]).
Qed.

Lemma mm_gen {W} L O (wm : option (wmode W)) fl f ws pg fn ft ch :
  is_ity L -> is_ity O -> wf_mm f -> off_page pg (mm_text f) -> as_mm ft fn -> 1 <= lc_T ch ->
  List.length ws = List.length (el_lines (mm_body f)) ->
  mm_fits L O fl f (triples (mm_body f) ws) ->
  owend (wtext wm) -> Forall2 (owok (wtext wm)) (map l_post (el_lines (mm_body f))) ws ->
  (wtext wm = None \/ Forall (keeps fl) (triples (mm_body f) ws) \/
     (lc_T ch = 1 /\ forall e, last (map Some (triples (mm_body f) ws)) None = Some e -> keeps fl e)) ->
  coo_open L O wm fl pg fn (Some (mm_text f)) ft ch = mm_check O fl f (el_result (wtext wm) fl (mm_body f) ws).
Proof.
  intros HL HO Hf Hpg Hg HT Hl (F1 & F2 & F3 & F4 & F5 & F6) Hwe Hwok Hd. rewrite (mm_open L O wm fl f pg fn ft ch Hg).
  apply (mm_main L O (wtext wm) fl f ws pg); auto. lia.
Qed.

Lemma triples_tt f : triples f (map (fun _ => tt) (el_pairs f)) = map (fun p => (fst p, snd p, tt)) (el_pairs f).
Proof. unfold triples. induction (el_pairs f) as [|p l IH]; [reflexivity|]. cbn [map combine fst snd]. rewrite IH. reflexivity. Qed.

(** ** Without weights *)

(** A believed header: the entries are those of the body (mirrored and filtered
    as the flags say), in file order, and the dimensions are the announced ones
    plus one, for every team size and interleaving.  Otherwise the construction
    throws. *)
Theorem C33_matrix_market : forall L O fl f pg fn ft ch,
  is_ity L -> is_ity O -> wf_mm f -> off_page pg (mm_text f) -> as_mm ft fn -> 1 <= lc_T ch ->
  let es := map (fun p => (fst p, snd p, tt)) (el_pairs (mm_body f)) in
  mm_fits L O fl f es ->
  (mm_believed fl f es ->
   exists c : coo unit, coo_open L O None fl pg fn (Some (mm_text f)) ft ch = Ok c /\
     holds c (stored fl es) /\ dims c (dval (mm_r f) + 1) (dval (mm_c f) + 1)) /\
  (~ mm_believed fl f es ->
   coo_open (W := unit) L O None fl pg fn (Some (mm_text f)) ft ch = Throw EError).
Proof.
  intros L O fl f pg fn ft ch HL HO Hf Hpg Hg HT es HF. unfold es in *. clear es. rewrite <- triples_tt in HF |- *.
  set (ws := map (fun _ => tt) (el_pairs (mm_body f))) in *.
  assert (Hl : List.length ws = List.length (el_lines (mm_body f))) by (unfold ws, el_pairs; rewrite !map_length; reflexivity).
  rewrite (mm_gen L O None fl f ws pg fn ft ch HL HO Hf Hpg Hg HT Hl HF I).
  - cbn [wtext option_map]. destruct (mm_check_spec O (None : option (wrd unit)) fl f ws HO Hf (proj2 (proj2 (proj2 (proj2 (proj2 HF)))))) as [H1 H2].
    split; [|exact H2]. intros HB. destruct (H1 HB) as (c & E & Hh & _ & Hd). exists c. auto.
  - revert Hl. generalize (el_lines (mm_body f)). clearbody ws. clear. induction ws as [|w ws IH]; intros [|l ls] H; try discriminate; constructor; [exact I|]. apply IH. injection H as H. exact H.
  - left. reflexivity.
Qed.
Print Assumptions C33_matrix_market.

(** ** With weights *)
Theorem C33_matrix_market_weighted : forall k L O fl f ws bc pg fn ft ch,
  wf_kind k -> weights_are k (mm_body f) ws ->
  is_ity L -> is_ity O -> wf_mm f -> off_page pg (mm_text f) -> as_mm ft fn -> 1 <= lc_T ch ->
  let es := triples (mm_body f) ws in
  (Forall (keeps fl) es \/ (lc_T ch = 1 /\ forall e, last (map Some es) None = Some e -> keeps fl e)) ->
  mm_fits L O fl f es ->
  (mm_believed fl f es ->
   exists c, coo_open L O (Some (mkWmode _ (wreader k) bc)) fl pg fn (Some (mm_text f)) ft ch = Ok c /\
     holds c (stored fl es) /\ holds_weights c (stored fl es) /\ dims c (dval (mm_r f) + 1) (dval (mm_c f) + 1)) /\
  (~ mm_believed fl f es ->
   coo_open L O (Some (mkWmode _ (wreader k) bc)) fl pg fn (Some (mm_text f)) ft ch = Throw EError).
Proof.
  intros k L O fl f ws bc pg fn ft ch Hk Hws HL HO Hf Hpg Hg HT es Hd HF. unfold es in *. clear es.
  assert (Hl : List.length ws = List.length (el_lines (mm_body f))).
  { unfold weights_are in Hws. rewrite <- (map_length l_post). clear - Hws. induction Hws; cbn [List.length]; [reflexivity|f_equal; assumption]. }
  rewrite (mm_gen L O (Some (mkWmode _ (wreader k) bc)) fl f ws pg fn ft ch HL HO Hf Hpg Hg HT Hl HF).
  - cbn [wtext option_map wm_text]. destruct (mm_check_spec O (Some (wreader k)) fl f ws HO Hf (proj2 (proj2 (proj2 (proj2 (proj2 HF)))))) as [H1 H2].
    split; [|exact H2]. intros HB. destruct (H1 HB) as (c & E & Hh & Hw & Hdm). exists c. split; [exact E|]. split; [exact Hh|]. split; [apply Hw; discriminate|exact Hdm].
  - cbn [wtext option_map wm_text owend]. apply wend_kind; exact Hk.
  - cbn [wtext option_map wm_text owok]. clear - Hws Hk. unfold weights_are in Hws. induction Hws; constructor; [apply wok_wpost; assumption|assumption].
  - right. exact Hd.
Qed.
Print Assumptions C33_matrix_market_weighted.

(** ** Consequences *)

(** Without flags the header must announce exactly the number of data lines, and
    dimensions that no label exceeds. *)
Theorem C33_plain : forall L O f pg fn ft ch,
  is_ity L -> is_ity O -> wf_mm f -> off_page pg (mm_text f) -> as_mm ft fn -> 1 <= lc_T ch ->
  let es := map (fun p => (fst p, snd p, tt)) (el_pairs (mm_body f)) in
  mm_fits L O no_flags f es ->
  let ok := dval (mm_z f) = Z.of_nat (List.length (el_lines (mm_body f))) /\
            Forall (fun p => fst p <= dval (mm_r f) /\ snd p <= dval (mm_c f))%Z (el_pairs (mm_body f)) in
  (ok -> exists c : coo unit, coo_open L O None no_flags pg fn (Some (mm_text f)) ft ch = Ok c /\
     holds c es /\ dims c (dval (mm_r f) + 1) (dval (mm_c f) + 1)) /\
  (~ ok -> coo_open (W := unit) L O None no_flags pg fn (Some (mm_text f)) ft ch = Throw EError).
Proof.
  intros L O f pg fn ft ch HL HO Hf Hpg Hg HT es HF ok.
  destruct (C33_matrix_market L O no_flags f pg fn ft ch HL HO Hf Hpg Hg HT HF) as [H1 H2]. fold es in H1, H2.
  assert (Es : stored no_flags es = es).
  { unfold stored. clear. induction es as [|[[x y] w] l IH]; [reflexivity|]. cbn [flat_map]. rewrite IH. reflexivity. }
  assert (Ec : counted no_flags es = es).
  { unfold counted. clear. induction es as [|[[x y] w] l IH]; [reflexivity|]. cbn [flat_map]. rewrite IH. reflexivity. }
  assert (EB : mm_believed no_flags f es <-> ok).
  { unfold mm_believed, ok. rewrite Es, Ec. cbn [no_flags f_sym f_sl]. unfold es. rewrite Forall_map. cbn [fst snd].
    rewrite map_length. unfold el_pairs at 2. rewrite map_length. tauto. }
  rewrite Es in H1. rewrite EB in H1, H2. split; assumption.
Qed.
Print Assumptions C33_plain.

(** A flag that drops entries, without the symmetric flag, makes files with an
    honest header unreadable: if the announced number is the number of data
    lines and one of them is dropped, the construction throws. *)
Theorem C33_dropped_rejected : forall L O fl f pg fn ft ch,
  is_ity L -> is_ity O -> wf_mm f -> off_page pg (mm_text f) -> as_mm ft fn -> 1 <= lc_T ch ->
  let es := map (fun p => (fst p, snd p, tt)) (el_pairs (mm_body f)) in
  mm_fits L O fl f es -> f_sym fl = false ->
  dval (mm_z f) = Z.of_nat (List.length (el_lines (mm_body f))) -> ~ Forall (keeps fl) es ->
  coo_open (W := unit) L O None fl pg fn (Some (mm_text f)) ft ch = Throw EError.
Proof.
  intros L O fl f pg fn ft ch HL HO Hf Hpg Hg HT es HF Hs Hz Hk.
  destruct (C33_matrix_market L O fl f pg fn ft ch HL HO Hf Hpg Hg HT HF) as [_ H2]. apply H2. fold es. intros [_ HB]. rewrite Hs in HB.
  assert (Hl : List.length es = List.length (el_lines (mm_body f))) by (unfold es, el_pairs; rewrite !map_length; reflexivity).
  assert (Hlt : List.length (stored fl es) < List.length es).
  { clear - Hk Hs. induction es as [|e l IH]; [elim Hk; constructor|]. unfold stored in *. cbn [flat_map List.length]. rewrite app_length.
    assert (Hle : forall l : list (Z * Z * unit), List.length (flat_map (expand (f_sym fl) (f_ut fl) (f_sl fl)) l) <= List.length l).
    { clear - Hs. intros l. induction l as [|[[x y] w] l IH]; [reflexivity|]. cbn [flat_map List.length]. rewrite app_length. rewrite Hs in *.
      unfold expand at 1. destruct (f_sl fl && (x =? y)%Z); cbn [List.length]; [lia|]. destruct (f_ut fl && (y <? x)%Z); cbn [List.length]; lia. }
    specialize (Hle l). destruct (expand (f_sym fl) (f_ut fl) (f_sl fl) e) eqn:Ee.
    - cbn [List.length]. lia.
    - assert (List.length (expand (f_sym fl) (f_ut fl) (f_sl fl) e) <= 1).
      { destruct e as [[x y] w]. unfold expand. rewrite Hs. destruct (f_sl fl && (x =? y)%Z); cbn [List.length]; [lia|]. destruct (f_ut fl && (y <? x)%Z); cbn [List.length]; lia. }
      rewrite Ee in H. cut (List.length (flat_map (expand (f_sym fl) (f_ut fl) (f_sl fl)) l) < List.length l); [lia|].
      apply IH. intros Hf. apply Hk. constructor; [unfold keeps; rewrite Ee; discriminate|exact Hf]. }
  cbv zeta in HB. destruct (f_sl fl); lia.
Qed.
Print Assumptions C33_dropped_rejected.

(** Any other banner. *)
Theorem C33_other_banner : forall {W} L O (wm : option (wmode W)) fl s pg fn ft ch,
  s <> [] -> ~ begins s mm_banner ->
  (ft = MATRIX_MARKET \/ (ft = AUTO /\ ends_in fn (chars ".mtx") /\ ~ begins s (chars "PIGO"))) ->
  coo_open L O wm fl pg fn (Some s) ft ch = Throw ENotYetImplemented /\
  csr_open L O wm pg fn (Some s) ft ch = Throw ENotYetImplemented.
Proof.
  intros W L O wm fl s pg fn ft ch Hs Hb Hg.
  assert (HU : used (reading s pg fn []) ft = Ok MATRIX_MARKET).
  { destruct Hg as [->|(-> & H2 & H1)]; [reflexivity|].
    destruct (C21_detection pg fn s Hs) as (g & Eg & _ & _ & _ & _ & HD). rewrite open_reading in Eg by exact Hs. injection Eg as <-. cbn [used].
    assert (P : forall t, ~ begins s (chars "PIGO" ++ t)).
    { intros t (b & r & E). apply H1. rewrite <- app_assoc in E. destruct t as [|x t]; [exists b, r; exact E|exists x, (t ++ b :: r); exact E]. }
    destruct (HD (P (chars "-COO-v1")) (P (chars "-CSR-v2")) (P (chars "-DiGraph-v1")) (P (chars "-Tensor-2"))) as (_ & HE & _).
    apply HE; assumption. }
  assert (HR : forall fl, with_reader (fun m d e => read_mm L O (wtext wm) fl m d e (lc_T ch) (lc_el ch)) (reading s pg fn []) = Throw ENotYetImplemented).
  { intros fl'. unfold with_reader, read_mm. cbn [reading rf_mem rf_fp List.length].
    assert (E : at_str (mkMem s pg) (flen (mkMem s pg)) 0 mm_header = Ok false).
    { pose proof (at_str_spec s pg [] s mm_header eq_refl) as E. cbn [List.length] in E. unfold flen. cbn [bytes]. etransitivity; [exact E|]. f_equal. apply begins_false. exact Hb. }
    rewrite E. reflexivity. }
  split.
  - unfold coo_open. rewrite open_reading by exact Hs. cbn [bind]. unfold coo_read. rewrite HU. cbn [bind]. rewrite HR. reflexivity.
  - unfold csr_open. rewrite open_reading by exact Hs. cbn [bind]. unfold csr_read. rewrite HU. cbn [bind]. unfold coo_read at 1. cbn [used bind]. rewrite HR. reflexivity.
Qed.
Print Assumptions C33_other_banner.

(** ** A concrete file

    The kind on the banner line, a comment, header "3 3 3" and three entries,
    one of them a self loop. *)
Definition ex_mm : mm_file :=
  mkMm (bs " pattern general") (bs "% made by hand" ++ [ch_nl])
    (bs "3") (bs " ") (bs "3") (bs " ") (bs "3") []
    (mkEl [] [ mkLine (bs "1") (bs " ") (bs "2") [] [];
               mkLine (bs "3") (bs " ") (bs "3") [] [];
               mkLine (bs "2") (bs " ") (bs "1") [] [] ]).
Lemma ex_mm_wf : wf_mm ex_mm.
Proof.
  unfold ex_mm, wf_mm; cbn [mm_kind mm_pre mm_r mm_s1 mm_c mm_s2 mm_z mm_rest mm_body].
  split; [repeat constructor|]. split.
  { apply (gap_cmt _ ch_pct (bs " made by hand") []); [reflexivity|repeat constructor|apply gap_nil]. }
  split; [digits_t|]. split; [split; [discriminate|repeat constructor]|]. split; [digits_t|]. split; [split; [discriminate|repeat constructor]|].
  split; [digits_t|]. split; [split; [constructor|exact I]|].
  split; cbn [el_lines el_head]; [apply gap_nil|].
  repeat split; try digits_t; try (repeat constructor; fail); try discriminate; apply gap_nil.
Qed.
Lemma ex_mm_off : off_page 64 (mm_text ex_mm).
Proof. split; [lia|]. vm_compute. discriminate. Qed.
Lemma ex_mm_fits fl : In fl [no_flags; mkFlags true false false; mkFlags false false true] ->
  mm_fits u8 u16 fl ex_mm (map (fun p => (fst p, snd p, tt)) (el_pairs (mm_body ex_mm))).
Proof.
  intros H. unfold mm_fits. split; [vm_compute; reflexivity|]. split; [vm_compute; reflexivity|]. split; [vm_compute; discriminate|]. split.
  - unfold labels_fit. change (el_pairs (mm_body ex_mm)) with [(1, 2); (3, 3); (2, 1)]%Z. repeat constructor; vm_compute; discriminate.
  - cbn [In] in H. destruct H as [<-|[<-|[<-|[]]]]; (split; [vm_compute; discriminate|intros _; vm_compute; discriminate]).
Qed.

Definition ex_mm_teams : lchoice :=
  mkLchoice 2 [1; 0; 1] (1, []) (1, []) (1, []) (mkGchoice 2 [] []) (mkChoice 1 0 [[0; 1; 2]] [[0; 1; 2]] [] [] []) [[1]; [0; 2]] [1; 0].

Example C33_applies : 
  (exists c : coo unit, coo_open u8 u16 None no_flags 64 (chars "a.mtx") (Some (mm_text ex_mm)) AUTO ex_mm_teams = Ok c /\
     holds c [(1, 2, tt); (3, 3, tt); (2, 1, tt)]%Z /\ dims c 4 4) /\
  (exists c : coo unit, coo_open u8 u16 None (mkFlags true false false) 64 (chars "a.mtx") (Some (mm_text ex_mm)) AUTO ex_mm_teams = Ok c /\
     holds c [(1, 2, tt); (2, 1, tt); (3, 3, tt); (2, 1, tt); (1, 2, tt)]%Z /\ dims c 4 4) /\
  coo_open (W := unit) u8 u16 None (mkFlags false false true) 64 (chars "a.mtx") (Some (mm_text ex_mm)) AUTO ex_mm_teams = Throw EError.
Proof.
  assert (Hm : as_mm AUTO (chars "a.mtx")) by (right; split; [reflexivity|exists (chars "a"); reflexivity]).
  assert (H8 : is_ity u8) by (cbn; auto). assert (H16 : is_ity u16) by (cbn; auto).
  split; [|split].
  - apply (C33_plain u8 u16 ex_mm 64 (chars "a.mtx") AUTO ex_mm_teams H8 H16 ex_mm_wf ex_mm_off Hm ltac:(cbn; lia) (ex_mm_fits no_flags ltac:(cbn; auto))).
    split; [reflexivity|]. change (el_pairs (mm_body ex_mm)) with [(1, 2); (3, 3); (2, 1)]%Z. repeat constructor; vm_compute; discriminate.
  - apply (C33_matrix_market u8 u16 (mkFlags true false false) ex_mm 64 (chars "a.mtx") AUTO ex_mm_teams H8 H16 ex_mm_wf ex_mm_off Hm ltac:(cbn; lia) (ex_mm_fits (mkFlags true false false) ltac:(cbn; auto))).
    split; [|vm_compute; discriminate]. change (el_pairs (mm_body ex_mm)) with [(1, 2); (3, 3); (2, 1)]%Z. repeat constructor; vm_compute; discriminate.
  - apply (C33_dropped_rejected u8 u16 (mkFlags false false true) ex_mm 64 (chars "a.mtx") AUTO ex_mm_teams H8 H16 ex_mm_wf ex_mm_off Hm ltac:(cbn; lia) (ex_mm_fits (mkFlags false false true) ltac:(cbn; auto))); [reflexivity|reflexivity|].
    intros H. inversion H as [|? ? _ H1]; subst. inversion H1 as [|? ? K _]; subst. apply K. reflexivity.
Qed.
