(** * BinLoad: reading binary files back *)

From Coq Require Import String.
From Verif Require Import Base Reader Sched SchedLemmas Coo Ascii Csr SpecCsr CsrLemmas Codec Bin SpecBin BinLemmas BinSave.
Open Scope list_scope.

Lemma fits_values t l : Forall (fit t) l -> exists zs, l = map Some zs /\ Forall (fun z => inrange t z = true) zs.
Proof.
  intros H. induction H as [|o l (z & -> & Hz) HF (zs & -> & Hzs)]; [exists []; split; [reflexivity|constructor]|].
  exists (z :: zs). split; [reflexivity|constructor; assumption].
Qed.

Definition wvals {W} (wc : option (codec W)) (ws : list W) : list byte :=
  match wc with None => [] | Some c => flat_map (cd_enc c) ws end.

(** The values of a determined weights array. *)
Lemma wfit_values {W} (wc : option (codec W)) P l m_ : wlen wc l (Z.of_nat m_) -> wfit wc P l ->
  exists ws, l = map Some ws /\ wgts wc l = map Some (wvals wc ws) /\ wsized wc /\
    match wc with None => ws = [] | Some c => faithful P c /\ Forall P ws /\ length ws = m_ end.
Proof.
  destruct wc as [c|]; cbn [wlen wfit wgts wvals wsized].
  - intros Hl (HF & _ & HP).
    assert (exists ws, l = map Some ws /\ Forall P ws) as (ws & -> & Hws).
    { clear -HP. induction HP as [|o l (z & -> & Hz) _ (zs & -> & Hzs)]; [exists []; split; [reflexivity|constructor]|].
      exists (z :: zs). split; [reflexivity|constructor; assumption]. }
    exists ws. split; [reflexivity|]. split; [rewrite array_raw; apply raw_some|].
    split; [eapply faithful_weak; [|exact HF]; contradiction|]. rewrite map_length in Hl.
    split; [exact HF|split; [exact Hws|lia]].
  - intros -> _. exists []. split; [reflexivity|]. split; [reflexivity|]. split; [exact I|reflexivity].
Qed.

Lemma get_weights_ok {W} (wc : option (codec W)) P s pg fn pre ws post tm m_ :
  match wc with None => ws = [] | Some c => faithful P c /\ Forall P ws /\ length ws = m_ end ->
  s = pre ++ wvals wc ws ++ post -> 1 <= fst tm ->
  get_weights wc (if is_some wc then fresh m_ else []) m_ tm (reading s pg fn pre) =
    Ok (map Some ws, reading s pg fn (pre ++ wvals wc ws)).
Proof.
  intros H E HT. destruct wc as [c|]; cbn [get_weights is_some wvals] in *.
  - destruct H as (HF & HP & Hl). destruct tm as [T sch]. cbn [fst] in HT.
    destruct (Nat.ltb_spec 0 (cd_size c * m_)) as [Hp|Hp].
    + rewrite (rd_array_ok c P s pg fn pre ws post T sch); [reflexivity|exact HF|exact HP|exact E|exact HT|rewrite fresh_length; lia|rewrite Hl; reflexivity].
    + destruct HF as (H0 & _). assert (H : m_ = 0) by nia. assert (ws = []) as -> by (apply length_zero_iff_nil; lia).
      rewrite H. cbn [flat_map map fresh repeat]. rewrite app_nil_r. reflexivity.
  - subst ws. rewrite app_nil_r. reflexivity.
Qed.

Lemma dec_enc t z : is_ity t -> inrange t z = true -> cd_dec (cint t) (cd_enc (cint t) z) = z.
Proof. intros H Hz. apply (cint_f t H). exact Hz. Qed.
Lemma enc_len t z : length (cd_enc (cint t) z) = cd_size (cint t).
Proof. apply le_length. Qed.
Lemma u8_ity : is_ity u8.
Proof. left. reflexivity. Qed.
Lemma size_byte_range t : is_ity t -> inrange u8 (size_byte t) = true.
Proof. intros H. unfold is_ity in H. cbn [In] in H. intuition (subst; reflexivity). Qed.
Lemma scalar_some t z : scalar t (Some z) = map Some (cd_enc (cint t) z).
Proof. reflexivity. Qed.
Lemma sizeof_some t : is_ity t -> sizeof t = map Some (cd_enc (cint u8) (size_byte t)).
Proof. intros H. rewrite sizeof_cell by exact H. reflexivity. Qed.
Lemma labels_some t zs : labels t (map Some zs) = map Some (flat_map (cd_enc (cint t)) zs).
Proof. unfold labels. rewrite array_raw. apply raw_some. Qed.

Lemma map_Some_inj (a b : list byte) : map Some a = map Some b -> a = b.
Proof.
  revert b. induction a as [|x a IH]; intros [|y b] H; cbn [map] in H; try discriminate; [reflexivity|].
  injection H as -> H. f_equal. apply IH; exact H.
Qed.

(** One read: [E] describes the file as what has been read followed by the rest. *)
Ltac nxt E := rewrite app_assoc in E.
Ltac rds E := rewrite (rd_ok _ _ _ _ _ _ _ E) by apply enc_len; cbn [bind]; nxt E.

(** What reading a saved object yields, wherever it lies in the file. *)
Definition reads_back {A} (get : rfile -> res (A * rfile)) (lay : list (option byte)) (c : A) : Prop :=
  exists b, lay = map Some b /\ b <> [] /\
    forall s pg fn pre post, s = pre ++ b ++ post ->
      get (reading s pg fn pre) = Ok (c, reading s pg fn (pre ++ b)).

Lemma omul_ok O a b : is_ity O -> (0 <= a)%Z -> (0 <= b)%Z -> (a * b <= imax O)%Z -> omul O a b = Ok (a * b)%Z.
Proof.
  intros HO Ha Hb H. unfold omul. destruct (Z.ltb_spec (ibits O) 32).
  - assert (imax O <= imax i32)%Z.
    { unfold is_ity in HO. cbn [In] in HO. clear H. repeat (destruct HO as [HO|HO]; [subst O; cbn in *; lia|]). destruct HO. }
    destruct (Z.leb_spec (a * b) (imax i32)); [reflexivity|lia].
  - unfold arith. destruct (Z.ltb_spec (ibits O) 32); [lia|]. assert (0 <= a * b)%Z by nia.
    destruct (isigned O) eqn:Es.
    + unfold inrange. assert (imin O <= 0)%Z.
      { unfold imin. rewrite Es. pose proof (Z.pow_nonneg 2 (ibits O - 1)). lia. }
      destruct (Z.leb_spec (imin O) (a * b)); [|lia]. destruct (Z.leb_spec (a * b) (imax O)); [reflexivity|lia].
    + unfold wrap. rewrite Es. f_equal. apply Z.mod_small. unfold imax in *. rewrite Es in *. lia.
Qed.

Section Load.
  Context {W : Type}.
  Variables (L O : ity) (wc : option (codec W)) (P : W -> Prop).
  Hypothesis HL : is_ity L.
  Hypothesis HO : is_ity O.

  Lemma coo_read_ok (c : coo W) tx ty tw : coo_shape wc c -> coo_full L O wc P c ->
    1 <= fst tx -> 1 <= fst ty -> 1 <= fst tw ->
    reads_back (fun f => coo_read_bin L O wc f tx ty tw) (coo_layout L O wc c) c.
  Proof.
    destruct c as [x y w n nr nc m]. intros (Hx & Hy & Hw) (Fr & Fc & Fn & Fm & Fx & Fy & Fw) Tx Ty Tw.
    unfold coo_layout. cbn [co_x co_y co_w co_n co_nrows co_ncols co_m] in *.
    destruct Fr as (zr & -> & Hr). destruct Fc as (zc & -> & Hc). destruct Fn as (zn & -> & Hn).
    destruct (fits_values L x Fx) as (xs & -> & Hxs). destruct (fits_values L y Fy) as (ys & -> & Hys).
    rewrite !map_length in *. set (m_ := Z.to_nat m). assert (Em : m = Z.of_nat m_) by (unfold m_; lia).
    rewrite Em in Hw. destruct (wfit_values wc P w m_ Hw Fw) as (ws & -> & Ew & _ & Hws).
    unfold reads_back, known. rewrite Ew, !scalar_some, !sizeof_some, !labels_some by assumption.
    change (text "PIGO-COO-v1"%string) with (map Some coo_magic). rewrite <- !map_app. eexists. split; [reflexivity|].
    split; [discriminate|].
    intros s pg fn pre post E. rewrite <- !app_assoc in E. unfold coo_read_bin.
    rewrite (rd_str_ok _ _ _ _ _ _ E). 2:{ intros HH. apply (f_equal (@length byte)) in HH. rewrite app_length, enc_len in HH. discriminate. }
    cbn [bind]. nxt E.
    rds E. rewrite dec_enc by (auto using u8_ity, size_byte_range).
    rds E. rewrite dec_enc by (auto using u8_ity, size_byte_range).
    rewrite !Z.eqb_refl. cbn [negb].
    rds E. rewrite dec_enc by assumption.
    rds E. rewrite dec_enc by assumption.
    rds E. rewrite dec_enc by assumption.
    rds E. rewrite dec_enc by assumption.
    unfold coo_alloc. destruct (Z.ltb_spec m 0); [lia|]. cbn [bind cx cy cw]. fold m_. rewrite !fresh_length.
    destruct tx as [T1 s1], ty as [T2 s2]. cbn [fst] in *.
    rewrite (rd_array_ok (cint L) _ _ _ _ _ _ _ _ _ _ _ (cint_f _ HL) Hxs E); [|exact Tx|lia|replace (length xs) with m_ by lia; reflexivity]. cbn [bind]. nxt E.
    rewrite (rd_array_ok (cint L) _ _ _ _ _ _ _ _ _ _ _ (cint_f _ HL) Hys E); [|exact Ty|lia|replace (length ys) with m_ by lia; reflexivity]. cbn [bind]. nxt E.
    rewrite (get_weights_ok wc P _ _ _ _ _ _ _ _ Hws E Tw). cbn [bind].
    rewrite <- !app_assoc. reflexivity.
  Qed.

  Lemma labels_same OS l : isize OS = isize O -> labels O l = labels OS l.
  Proof. intros E. unfold labels, cint. rewrite E. reflexivity. Qed.

  (** [OS]: the element type of the storage of the offsets. *)
  Lemma csr_read_os_ok OS (c : csr W) t_o te tw : is_ity OS -> isize OS = isize O -> Forall (fit OS) (cs_off c) ->
    csr_shape wc c -> csr_full L O wc P c -> room L (cs_n c) ->
    1 <= fst t_o -> 1 <= fst te -> 1 <= fst tw ->
    reads_back (fun f => csr_read_bin L O OS wc f t_o te tw) (csr_layout L O wc c) c.
  Proof.
    destruct c as [o e w n m nr nc]. intros HOS ES Fo (H0 & Ho & He & Hw) (Fn & Fm & Fr & Fc & _ & Fe & Fw) HR To Te Tw.
    unfold csr_layout. cbn [cs_off cs_end cs_w cs_n cs_nrows cs_ncols cs_m] in *.
    destruct Fr as (zr & -> & Hr). destruct Fc as (zc & -> & Hc).
    destruct (fits_values OS o Fo) as (os & -> & Hos). destruct (fits_values L e Fe) as (es & -> & Hes).
    rewrite !map_length in *. set (m_ := Z.to_nat m). assert (Em : m = Z.of_nat m_) by (unfold m_; lia).
    rewrite Em in Hw. destruct (wfit_values wc P w m_ Hw Fw) as (ws & -> & Ew & _ & Hws).
    unfold reads_back, known. rewrite (labels_same OS _ ES). rewrite Ew, !scalar_some, !sizeof_some, !labels_some by assumption.
    change (text "PIGO-CSR-v2"%string) with (map Some csr_magic). rewrite <- !map_app. eexists. split; [reflexivity|].
    split; [discriminate|].
    intros s pg fn pre post E. rewrite <- !app_assoc in E. unfold csr_read_bin.
    rewrite (rd_str_ok _ _ _ _ _ _ E). 2:{ intros HH. apply (f_equal (@length byte)) in HH. rewrite app_length, enc_len in HH. discriminate. }
    cbn [bind]. nxt E.
    rds E. rewrite dec_enc by (auto using u8_ity, size_byte_range).
    rds E. rewrite dec_enc by (auto using u8_ity, size_byte_range).
    rewrite !Z.eqb_refl. cbn [negb].
    rds E. rewrite dec_enc by assumption.
    rds E. rewrite dec_enc by assumption.
    rds E. rewrite dec_enc by assumption.
    rds E. rewrite dec_enc by assumption.
    pose proof (plus1_ok L n HL H0 HR) as E1.
    unfold csr_alloc, alloc. rewrite E1. destruct (Z.ltb_spec m 0); [lia|]. cbn [bind]. fold m_.
    assert (EA : (if is_some wc then Ok (fresh m_) else Ok []) = Ok (if is_some wc then @fresh W m_ else [])) by (destruct wc; reflexivity).
    rewrite EA. cbn [bind]. destruct (Z.ltb_spec (n + 1) 0); [lia|]. cbn [bind]. rewrite !fresh_length.
    destruct t_o as [T1 s1], te as [T2 s2]. cbn [fst] in *.
    rewrite (rd_array_ok (cint OS) _ _ _ _ _ _ _ _ _ _ _ (cint_f _ HOS) Hos E); [|exact To|lia|cbn [cint cd_size]; rewrite ES; replace (length os) with (Z.to_nat (n + 1)) by lia; reflexivity]. cbn [bind]. nxt E.
    rewrite (rd_array_ok (cint L) _ _ _ _ _ _ _ _ _ _ _ (cint_f _ HL) Hes E); [|exact Te|lia|replace (length es) with m_ by lia; reflexivity]. cbn [bind]. nxt E.
    rewrite (get_weights_ok wc P _ _ _ _ _ _ _ _ Hws E Tw). cbn [bind].
    rewrite <- !app_assoc. reflexivity.
  Qed.

  Lemma csr_read_ok (c : csr W) t_o te tw : csr_shape wc c -> csr_full L O wc P c -> room L (cs_n c) ->
    1 <= fst t_o -> 1 <= fst te -> 1 <= fst tw ->
    reads_back (fun f => csr_read_bin L O O wc f t_o te tw) (csr_layout L O wc c) c.
  Proof. intros Hs Hf. apply csr_read_os_ok; auto. apply Hf. Qed.

  Lemma tensor_read_ok (t : tensor W) tc tw : tensor_shape wc t -> tensor_full L O wc P t ->
    (te_order t * te_m t <= imax O)%Z -> 1 <= fst tc -> 1 <= fst tw ->
    reads_back (fun f => tensor_read_bin L O wc f tc tw) (tensor_layout L O wc t) t.
  Proof.
    destruct t as [c w od m]. intros (H0 & H1 & Hc & Hw) (Fo & Fm & Fc & Fw) HR Tc Tw.
    unfold tensor_layout. cbn [te_c te_w te_order te_m] in *.
    destruct (fits_values L c Fc) as (cs & -> & Hcs).
    rewrite !map_length in *. set (m_ := Z.to_nat m). assert (Em : m = Z.of_nat m_) by (unfold m_; lia).
    rewrite Em in Hw. destruct (wfit_values wc P w m_ Hw Fw) as (ws & -> & Ew & _ & Hws).
    set (wb := match wc with None => [] | Some c => cd_enc (cint u8) (Z.of_nat (cd_size c)) end).
    assert (Ewb : match wc with None => [] | Some c => [Some (Z.of_nat (cd_size c))] end = map Some wb).
    { unfold wb. destruct wc as [cd|]; [|reflexivity]. cbn [wfit] in Fw. destruct Fw as (_ & Hsz & _).
      cbn [cint cd_enc]. change (isize u8) with 1. cbn [le map]. rewrite Z.mod_small by lia. reflexivity. }
    unfold reads_back, known. rewrite Ew, Ewb, !scalar_some, !sizeof_some, !labels_some by assumption.
    change (text "PIGO-Tensor-2"%string) with (map Some tensor_magic). rewrite <- !map_app. eexists. split; [reflexivity|].
    split; [discriminate|].
    intros s pg fn pre post E. rewrite <- !app_assoc in E. unfold tensor_read_bin.
    rewrite (rd_str_ok _ _ _ _ _ _ E). 2:{ intros HH. apply (f_equal (@length byte)) in HH. rewrite app_length, enc_len in HH. discriminate. }
    cbn [bind]. nxt E.
    rds E. rewrite dec_enc by (auto using u8_ity, size_byte_range).
    rds E. rewrite dec_enc by (auto using u8_ity, size_byte_range).
    rewrite !Z.eqb_refl. cbn [negb].
    match goal with |- bind ?X _ = _ => assert (EX : X = Ok (reading s pg fn ((((pre ++ tensor_magic) ++ cd_enc (cint u8) (size_byte L)) ++ cd_enc (cint u8) (size_byte O)) ++ wb))) end.
    { unfold wb. unfold wb in E. destruct wc as [cd|]; [|rewrite app_nil_r; reflexivity].
      cbn [wfit] in Fw. destruct Fw as (_ & Hsz & _).
      rds E. rewrite dec_enc.
      - rewrite Z.eqb_refl. cbn [negb]. reflexivity.
      - apply u8_ity.
      - unfold inrange. apply andb_true_intro. split; apply Z.leb_le; cbn; lia. }
    rewrite EX. cbn [bind]. nxt E.
    rds E. rewrite dec_enc by assumption.
    rds E. rewrite dec_enc by assumption.
    unfold tensor_alloc, alloc. rewrite omul_ok by assumption. cbn [bind]. destruct (Z.ltb_spec (od * m) 0); [nia|].
    destruct (Z.ltb_spec m 0); [lia|]. cbn [bind]. fold m_.
    assert (EA : (if is_some wc then Ok (fresh m_) else Ok []) = Ok (if is_some wc then @fresh W m_ else [])) by (destruct wc; reflexivity).
    rewrite EA. cbn [bind]. rewrite !fresh_length.
    destruct tc as [T1 s1]. cbn [fst] in *.
    assert (Lc : length cs = Z.to_nat od * m_) by nia.
    rewrite (rd_array_ok (cint L) _ _ _ _ _ _ _ _ _ _ _ (cint_f _ HL) Hcs E); [|exact Tc|lia|rewrite Lc; rewrite Nat.mul_assoc; reflexivity]. cbn [bind]. nxt E.
    rewrite (get_weights_ok wc P _ _ _ _ _ _ _ _ Hws E Tw). cbn [bind].
    rewrite <- !app_assoc. reflexivity.
  Qed.
End Load.
