(** * Property C58 for tensors: [double] and [float] values written as text

    As [P_Stb.v], for the entries of a tensor of any order.  The theorems use the
    axioms of the standard library's real numbers (through Flocq); see [Print
    Assumptions]. *)

From Coq Require Import String QArith Qabs Qpower Lqa SpecFloat Permutation.
From Verif Require Import Base Reader Sched Spec SpecDec SpecFp SpecFp64 SpecText SpecTensor SpecTensorOut ReaderLemmas Coo CooLemmas WeightLemmas ElSpec ElFinal ElThms ElExamples
  Ascii AsciiLemmas StbLemmas WriteLemmas TextRound Fp64 Fp64Lemmas Fp64Near Fp64Err P_Float P_Double P_DoubleNear P_Text Stb StbArith StbFinal StbConv Codec Bin SpecBin Load Tensor TensorMain TensorOut WriteGen TensorOutLemmas TensorRound P_Tensor P_TensorOut P_Stb.
Close Scope Q_scope.
Open Scope list_scope.
Open Scope Z_scope.
Notation length := List.length.

Lemma double_formats base lb nb x q : is_double x -> denotes x q -> formats (fmt_double base lb nb) x (dtext x).
Proof.
  intros Hx Dx. destruct (dlit_spec _ q Hx Dx) as (r & ip & fp & R & Hw & Et & Hlen & _).
  destruct (formats_double base lb nb _ r R) as [F1 F2]; [rewrite <- Et; lia|]. rewrite <- Et in F1, F2. split; assumption.
Qed.

Lemma float_formats base lb nb x q : is_float x -> denotes x q -> formats (fmt_float base lb nb) x (dtext (to64 x)).
Proof. intros Hx Dx. destruct (to64_exact _ _ Hx Dx) as [H3 H4]. exact (double_formats base lb nb (to64 x) q H3 H4). Qed.

Lemma double_tpost F x q : is_double x -> denotes x q ->
  rest (ch_sp :: dtext x) /\ wpost (WFloat F) (ch_sp :: dtext x) (fp_value F (dlit_of x)) /\ plain_weight (ch_sp :: dtext x) /\ holds_number (ch_sp :: dtext x).
Proof.
  intros H1 H2. destruct (double_post F x q H1 H2) as [P1 P2]. destruct (dlit_spec _ q H1 H2) as (r & ip & fp & R & Hw & Et & _).
  destruct (fp_plain r Hw) as [P3 P4]. rewrite <- Et in P3, P4. auto.
Qed.

(** Values that are multiples of 1/64 below 2^40, or integers below 2^53, come
    back as they were. *)
Theorem C58_tensor_double_round_trip : forall pw L O base lb nb order (es : list (list Z * spec_float)) t parts sched bc pg fn ch,
  pow_exact pw -> is_ity L -> is_ity O -> tensor_holds t order es -> tensor_weights t es -> (1 <= order)%nat -> es <> [] ->
  Forall (fun e => Forall (fun x => 0 <= x <= imax L) (fst e)) es ->
  Forall (fun e => is_double (snd e) /\ exists q, denotes (snd e) q /\ (sixty_fourths q \/ integer_below (2 ^ 53) q)) es ->
  Z.of_nat (order * length es) <= imax O -> concat parts = seq 0 (length es) ->
  off_page pg (tensor_text dec (Some dtext) es) -> (1 <= lc_T ch)%nat ->
  exists s t', tensor_write O (fmt_int L) (Some (fmt_double base lb nb)) t parts sched = Ok s /\
    tensor_open L O (Some (mkWmode _ (wr_float (fp_double pw)) bc)) pg fn (Some s) EDGE_LIST ch = Ok t' /\
    tensor_holds t' order es /\ tensor_weights t' es.
Proof.
  intros pw L O base lb nb k es t parts sched bc pg fn ch Hpw HL HO Ht Htw Hk Hne HL0 HW Hm Hp Hpg HT. rewrite Forall_forall in HW.
  destruct (tround_weighted (WFloat (fp_double pw)) (fmt_double base lb nb) dtext (fun w => fp_value (fp_double pw) (dlit_of w)) L O k es t parts sched bc pg fn ch)
    as (s & t' & E1 & _ & E2 & E3 & E4); auto.
  - exact I.
  - intros e He. destruct (HW e He) as (H1 & q & H2 & _). exact (double_formats base lb nb _ q H1 H2).
  - intros e He. destruct (HW e He) as (H1 & q & H2 & _). exact (double_tpost (fp_double pw) _ q H1 H2).
  - exists s, t'. split; [exact E1|]. split; [exact E2|]. split; [exact E3|]. unfold tensor_weights. refine (eq_trans E4 _). apply map_ext_in. intros e He. f_equal.
    destruct (HW e He) as (H1 & q & H2 & H3). apply (double_reads pw _ q Hpw H1 H2 H3).
Qed.
Print Assumptions C58_tensor_double_round_trip.

(** The same for [float] values that are multiples of 1/64 up to 2^24. *)
Theorem C58_tensor_float_round_trip : forall pw L O base lb nb order (es : list (list Z * spec_float)) t parts sched bc pg fn ch,
  pow_exact pw -> is_ity L -> is_ity O -> tensor_holds t order es -> tensor_weights t es -> (1 <= order)%nat -> es <> [] ->
  Forall (fun e => Forall (fun x => 0 <= x <= imax L) (fst e)) es ->
  Forall (fun e => is_float (snd e) /\ exists q, denotes (snd e) q /\ sixty_fourths24 q) es ->
  Z.of_nat (order * length es) <= imax O -> concat parts = seq 0 (length es) ->
  off_page pg (tensor_text dec (Some (fun w => dtext (to64 w))) es) -> (1 <= lc_T ch)%nat ->
  exists s t', tensor_write O (fmt_int L) (Some (fmt_float base lb nb)) t parts sched = Ok s /\
    tensor_open L O (Some (mkWmode _ (wr_float (fp_float pw)) bc)) pg fn (Some s) EDGE_LIST ch = Ok t' /\
    tensor_holds t' order es /\ tensor_weights t' es.
Proof.
  intros pw L O base lb nb k es t parts sched bc pg fn ch Hpw HL HO Ht Htw Hk Hne HL0 HW Hm Hp Hpg HT. rewrite Forall_forall in HW.
  destruct (tround_weighted (WFloat (fp_float pw)) (fmt_float base lb nb) (fun w => dtext (to64 w)) (fun w => fp_value (fp_float pw) (dlit_of (to64 w))) L O k es t parts sched bc pg fn ch)
    as (s & t' & E1 & _ & E2 & E3 & E4); auto.
  - exact I.
  - intros e He. destruct (HW e He) as (H1 & q & H2 & _). exact (float_formats base lb nb _ q H1 H2).
  - intros e He. destruct (HW e He) as (H1 & q & H2 & _). destruct (to64_exact _ _ H1 H2) as [H3 H4]. exact (double_tpost (fp_float pw) _ q H3 H4).
  - exists s, t'. split; [exact E1|]. split; [exact E2|]. split; [exact E3|]. unfold tensor_weights. refine (eq_trans E4 _). apply map_ext_in. intros e He. f_equal.
    destruct (HW e He) as (H1 & q & H2 & H3). apply (float_reads pw _ q Hpw H1 H2 H3).
Qed.
Print Assumptions C58_tensor_float_round_trip.

(** Any [double] values of magnitude at most 2^52 come back with an error of at
    most 0.501 millionths plus a relative error of 2^-49. *)
Theorem C58_tensor_double_round_trip_error : forall pw L O base lb nb order (es : list (list Z * spec_float)) t parts sched bc pg fn ch,
  pow_accurate pw -> is_ity L -> is_ity O -> tensor_holds t order es -> tensor_weights t es -> (1 <= order)%nat -> es <> [] ->
  Forall (fun e => Forall (fun x => 0 <= x <= imax L) (fst e)) es ->
  Forall (fun e => is_double (snd e) /\ exists q, denotes (snd e) q /\ (Qabs q <= pow2 52)%Q) es ->
  Z.of_nat (order * length es) <= imax O -> concat parts = seq 0 (length es) ->
  off_page pg (tensor_text dec (Some dtext) es) -> (1 <= lc_T ch)%nat ->
  exists s t', tensor_write O (fmt_int L) (Some (fmt_double base lb nb)) t parts sched = Ok s /\
    tensor_open L O (Some (mkWmode _ (wr_float (fp_double pw)) bc)) pg fn (Some s) EDGE_LIST ch = Ok t' /\
    tensor_holds t' order es /\
    exists ws, te_w t' = map Some ws /\
      Forall2 (fun e w => exists q v, denotes (snd e) q /\ is_double w /\ denotes w v /\
        (Qabs (v - q) <= (501 # 1000) * pow10 (-6) + pow2 (-49) * Qabs q)%Q) es ws.
Proof.
  intros pw L O base lb nb k es t parts sched bc pg fn ch Hpw HL HO Ht Htw Hk Hne HL0 HW Hm Hp Hpg HT. rewrite Forall_forall in HW.
  destruct (tround_weighted (WFloat (fp_double pw)) (fmt_double base lb nb) dtext (fun w => fp_value (fp_double pw) (dlit_of w)) L O k es t parts sched bc pg fn ch)
    as (s & t' & E1 & _ & E2 & E3 & E4); auto.
  - exact I.
  - intros e He. destruct (HW e He) as (H1 & q & H2 & _). exact (double_formats base lb nb _ q H1 H2).
  - intros e He. destruct (HW e He) as (H1 & q & H2 & _). exact (double_tpost (fp_double pw) _ q H1 H2).
  - exists s, t'. split; [exact E1|]. split; [exact E2|]. split; [exact E3|].
    exists (map (fun e => fp_value (fp_double pw) (dlit_of (snd e))) es). split; [rewrite map_map; exact E4|].
    clear - HW Hpw. induction es as [|e es IH]; cbn [map]; constructor; [|apply IH; intros; apply HW; right; assumption].
    destruct (HW e (or_introl eq_refl)) as (H1 & q & H2 & H3). destruct (double_reads_near pw _ q Hpw H1 H2 H3) as (Hd & v & Dv & Ev). exists q, v. auto.
Qed.
Print Assumptions C58_tensor_double_round_trip_error.

(** ** The hypotheses hold in a concrete case *)
Definition ex_tdoubles : list (list Z * spec_float) := [([1; 2; 3], dlit false 25 (-1)); ([3; 4; 255], dlit true 15625 (-6))].
Definition ex_tdbl : tensor spec_float := mkTensor (map Some [1; 2; 3; 3; 4; 255]) (map (fun e => Some (snd e)) ex_tdoubles) 3 2.
Example C58_tensor_applies :
  pow_exact pow_ref /\ tensor_holds ex_tdbl 3 ex_tdoubles /\ tensor_weights ex_tdbl ex_tdoubles /\
  Forall (fun e => Forall (fun x => 0 <= x <= imax u8) (fst e)) ex_tdoubles /\
  Forall (fun e => is_double (snd e) /\ exists q, denotes (snd e) q /\ (sixty_fourths q \/ integer_below (2 ^ 53) q)) ex_tdoubles /\
  off_page 4096 (tensor_text dec (Some dtext) ex_tdoubles) /\
  tensor_write u8 (fmt_int u8) (Some (fmt_double 0 0 0)) ex_tdbl [[0%nat]; [1%nat]] [1; 0; 1]%nat =
    Ok (bs "1 2 3 2.500000" ++ [ch_nl] ++ bs "3 4 255 -0.015625" ++ [ch_nl])%list.
Proof.
  split; [exact pow_ref_exact|].
  split; [split; [reflexivity|split; [reflexivity|split; [repeat constructor|reflexivity]]]|]. split; [reflexivity|].
  split; [unfold ex_tdoubles; repeat (apply Forall_cons; [cbn [fst]; repeat (apply Forall_cons; [split; vm_compute; discriminate|]); apply Forall_nil|]); apply Forall_nil|].
  split.
  { constructor; [split; [reflexivity|]|constructor; [split; [reflexivity|]|constructor]].
    - exists (5 # 2)%Q. split; [eexists; split; reflexivity|left; split; [exists 160; reflexivity|reflexivity]].
    - exists (-1 # 64)%Q. split; [eexists; split; reflexivity|left; split; [exists (-1); reflexivity|reflexivity]]. }
  split; [split; [apply Nat.ltb_lt; reflexivity|vm_compute; discriminate]|]. vm_compute. reflexivity.
Qed.
