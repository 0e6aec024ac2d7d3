(** * P_Crash: C67, a save that does not come to its end *)

From Coq Require Import String.
From Verif Require Import Base Reader Sched SchedLemmas CooExec Coo Ascii Csr SpecCsr CsrLemmas Codec Bin SpecBin BinLemmas BinSave BinLoad Graph Load Tensor BinOpen BinBad SpecReweigh Reweigh SpecCut Cut P_Bin P_BinBad P_BinEx P_Cut Crash SpecCrash CrashLemmas CrashRead.
Notation length := List.length.
Open Scope list_scope.

(** ** The phases of the saves *)
Lemma wphases {W} (wc : option (codec W)) l m tm : wsized wc -> wlen wc l (Z.of_nat m) -> 1 <= fst tm ->
  Forall proper (weight_phases wc l m tm) /\ flat_map image (weight_phases wc l m tm) = wgts wc l.
Proof.
  intros HW Hl HT. unfold weight_phases. destruct wc as [cd|]; [|split; [constructor|reflexivity]]. cbn [wgts wlen wsized] in *. rewrite array_raw.
  pose proof (raw_length cd _ l HW) as HL. assert (El : length l = m) by lia. rewrite El in HL.
  destruct (Nat.ltb_spec 0 (cd_size cd * m)).
  - split; [constructor; [split; [symmetry; exact HL|exact HT]|constructor]|]. cbn [flat_map image]. apply app_nil_r.
  - split; [constructor|]. symmetry. apply length_zero_iff_nil. lia.
Qed.

Section Phases.
  Context {W : Type}.
  Variables (L O : ity) (wc : option (codec W)).
  Hypothesis HL : is_ity L.
  Hypothesis HO : is_ity O.
  Hypothesis HW : wsized wc.

  Let SL z : length (cell_bytes (cint L) z) = isize L := cell_bytes_length (cint L) _ z (cint_f L HL).
  Let SO z : length (cell_bytes (cint O) z) = isize O := cell_bytes_length (cint O) _ z (cint_f O HO).
  Let RL l : length (raw (cint L) l) = isize L * length l := raw_length (cint L) _ l (cint_f L HL).
  Let RO l : length (raw (cint O) l) = isize O * length l := raw_length (cint O) _ l (cint_f O HO).

  Lemma coo_start_seq : Forall is_seq (coo_start L O) /\ psizes (coo_start L O) = 13.
  Proof using. split; [repeat constructor|]. reflexivity. Qed.

  Lemma coo_start_fields (c : coo W) : psizes (coo_start L O ++ coo_fields L O c) = 13 + 3 * isize L + isize O.
  Proof using HL HO. unfold psizes, coo_start, coo_fields. cbn [app map psize]. rewrite !SL, !SO, map_length. unfold sum_nat. cbn [fold_right]. change (length coo_magic) with 11.
    change (length (cell_bytes (cint u8) (Some (size_byte L)))) with 1. change (length (cell_bytes (cint u8) (Some (size_byte O)))) with 1. lia. Qed.

  Lemma coo_phases_ok (c : coo W) tx ty tw : coo_shape wc c -> 1 <= fst tx -> 1 <= fst ty -> 1 <= fst tw ->
    Forall proper (coo_phases L O wc c tx ty tw) /\ flat_map image (coo_phases L O wc c tx ty tw) = coo_layout L O wc c.
  Proof using HL HO HW.
    intros (Hx & Hy & Hw) T1 T2 T3. unfold coo_phases, coo_start, coo_fields, coo_arrays. set (m := Z.to_nat (co_m c)).
    assert (Em : co_m c = Z.of_nat m) by (unfold m; lia). rewrite Em in Hw.
    destruct (wphases wc (co_w c) m tw HW Hw T3) as (P1 & P2). split.
    - cbn [app]. do 7 (constructor; [exact I|]). constructor; [split; [rewrite RL; f_equal; lia|exact T1]|]. constructor; [split; [rewrite RL; f_equal; lia|exact T2]|exact P1].
    - cbn [app flat_map image]. rewrite P2. unfold coo_layout, known. rewrite !scalar_cell, !sizeof_cell by assumption. unfold labels. rewrite !array_raw. reflexivity.
  Qed.

  Lemma csr_start_seq : Forall is_seq (csr_start L O) /\ psizes (csr_start L O) = 13.
  Proof using. split; [repeat constructor|]. reflexivity. Qed.

  Lemma csr_start_fields (c : csr W) : psizes (csr_start L O ++ csr_fields L O c) = 13 + 3 * isize L + isize O.
  Proof using HL HO. unfold psizes, csr_start, csr_fields. cbn [app map psize]. rewrite !SL, !SO, map_length. unfold sum_nat. cbn [fold_right]. change (length csr_magic) with 11.
    change (length (cell_bytes (cint u8) (Some (size_byte L)))) with 1. change (length (cell_bytes (cint u8) (Some (size_byte O)))) with 1. lia. Qed.

  Lemma csr_phases_ok (c : csr W) t_o te tw : csr_shape wc c -> 1 <= fst t_o -> 1 <= fst te -> 1 <= fst tw ->
    Forall proper (csr_phases L O wc c (cs_n c + 1) t_o te tw) /\ flat_map image (csr_phases L O wc c (cs_n c + 1) t_o te tw) = csr_layout L O wc c.
  Proof using HL HO HW.
    intros (Hn & Ho & He & Hw) T1 T2 T3. unfold csr_phases, csr_start, csr_fields, csr_arrays. set (m := Z.to_nat (cs_m c)).
    assert (Em : cs_m c = Z.of_nat m) by (unfold m; lia). rewrite Em in Hw.
    destruct (wphases wc (cs_w c) m tw HW Hw T3) as (P1 & P2). split.
    - cbn [app]. do 7 (constructor; [exact I|]). constructor; [split; [rewrite RO; f_equal; lia|exact T1]|]. constructor; [split; [rewrite RL; f_equal; lia|exact T2]|exact P1].
    - cbn [app flat_map image]. rewrite P2. unfold csr_layout, known. rewrite !scalar_cell, !sizeof_cell by assumption. unfold labels. rewrite !array_raw. reflexivity.
  Qed.

  Lemma digraph_phases_ok (i o : csr W) t1 t2 t3 t4 t5 t6 : csr_shape wc i -> csr_shape wc o ->
    1 <= fst t1 -> 1 <= fst t2 -> 1 <= fst t3 -> 1 <= fst t4 -> 1 <= fst t5 -> 1 <= fst t6 ->
    Forall proper (digraph_phases L O wc (i, o) (cs_n i + 1) (cs_n o + 1) t1 t2 t3 t4 t5 t6) /\
    flat_map image (digraph_phases L O wc (i, o) (cs_n i + 1) (cs_n o + 1) t1 t2 t3 t4 t5 t6) = digraph_layout L O wc i o.
  Proof using HL HO HW.
    intros Hi Ho T1 T2 T3 T4 T5 T6. unfold digraph_phases. cbn [fst snd].
    destruct (csr_phases_ok i t1 t2 t3 Hi T1 T2 T3) as (A1 & A2). destruct (csr_phases_ok o t4 t5 t6 Ho T4 T5 T6) as (B1 & B2). split.
    - constructor; [exact I|]. apply Forall_app. split; assumption.
    - cbn [flat_map image]. rewrite flat_map_app, A2, B2. reflexivity.
  Qed.

  Lemma tensor_start_seq : Forall is_seq (tensor_start L O wc) /\ psizes (tensor_start L O wc) = 15 + match wc with None => 0 | Some _ => 1 end.
  Proof using HW. split; [repeat constructor|]. unfold psizes, tensor_start. destruct wc; reflexivity. Qed.

  Lemma tensor_start_fields (t : tensor W) : psizes (tensor_start L O wc ++ tensor_fields O t) = 15 + (match wc with None => 0 | Some _ => 1 end) + 2 * isize O.
  Proof using HO HW. unfold psizes, tensor_start, tensor_fields. cbn [app map psize]. rewrite !SO, map_length. unfold sum_nat. cbn [fold_right]. change (length tensor_magic) with 13.
    change (length (cell_bytes (cint u8) (Some (size_byte L)))) with 1. change (length (cell_bytes (cint u8) (Some (size_byte O)))) with 1.
    destruct wc as [cd|]; [change (length (cell_bytes (cint u8) (Some (Z.of_nat (cd_size cd))))) with 1|cbn [List.length]]; lia. Qed.

  Lemma tensor_phases_ok (t : tensor W) tc tw : tensor_shape wc t -> (match wc with None => True | Some c => cd_size c < 256 end) -> 1 <= fst tc -> 1 <= fst tw ->
    Forall proper (tensor_phases L O wc t tc tw) /\ flat_map image (tensor_phases L O wc t tc tw) = tensor_layout L O wc t.
  Proof using HL HO HW.
    intros (Hor & Hm & Hc & Hw) Hsz T1 T2. unfold tensor_phases, tensor_start, tensor_fields, tensor_arrays. set (m := Z.to_nat (te_m t)).
    assert (Em : te_m t = Z.of_nat m) by (unfold m; lia). rewrite Em in Hw.
    destruct (wphases wc (te_w t) m tw HW Hw T2) as (P1 & P2). split.
    - cbn [app]. do 6 (constructor; [exact I|]). constructor; [split; [rewrite RL; nia|exact T1]|exact P1].
    - cbn [app flat_map image]. rewrite P2. unfold tensor_layout, known. rewrite !scalar_cell, !sizeof_cell by assumption. unfold labels. rewrite !array_raw.
      do 3 f_equal. f_equal. destruct wc as [cd|]; [|reflexivity]. unfold cell_bytes. cbn [cint cd_enc]. change (isize u8) with 1. cbn [le map]. rewrite Z.mod_small by lia. reflexivity.
  Qed.
End Phases.

(** ** The stores, all of them, are the save *)
Lemma all_stored ps n k sz : Forall proper ps -> n = length (flat_map image ps) -> sz = n -> n <= k -> 0 < n ->
  forall w', (w <- open_write sz ;; run_phases ps w) = Ok w' -> exists w, interrupted n ps k = Ok w /\ wf_data w = wf_data w'.
Proof.
  intros HP Hn -> Hk H0 w' E. unfold interrupted. destruct (open_write n) as [w| | |]; cbn [bind] in *; try discriminate.
  rewrite phases_stores in E by exact HP. rewrite firstn_all2 by (rewrite all_stores_length, psizes_image by exact HP; lia).
  destruct (exec_all fput _ _) as [f| | |]; cbn [bind] in *; try discriminate. eexists. split; [reflexivity|]. injection E as <-. reflexivity.
Qed.

Lemma head_pos {A} (a b : list A) : a <> [] -> 0 < length (a ++ b).
Proof. destruct a; [congruence|cbn; lia]. Qed.

Theorem C67_stores : forall {W} L O (wc : option (codec W)), is_ity L -> is_ity O -> wsized wc ->
  (forall c tx ty tw k, coo_shape wc c -> 1 <= fst tx -> 1 <= fst ty -> 1 <= fst tw ->
     let n := length (coo_layout L O wc c) in n <= k ->
     exists w w', interrupted n (coo_phases L O wc c tx ty tw) k = Ok w /\ coo_save L O wc c tx ty tw = Ok w' /\ wf_data w = wf_data w') /\
  (forall c t_o te tw k, csr_shape wc c -> room L (cs_n c) -> 1 <= fst t_o -> 1 <= fst te -> 1 <= fst tw ->
     let n := length (csr_layout L O wc c) in n <= k ->
     exists w w', interrupted n (csr_phases L O wc c (cs_n c + 1) t_o te tw) k = Ok w /\ csr_save L O wc c t_o te tw = Ok w' /\ wf_data w = wf_data w') /\
  (forall i o t1 t2 t3 t4 t5 t6 k, csr_shape wc i -> room L (cs_n i) -> csr_shape wc o -> room L (cs_n o) ->
     1 <= fst t1 -> 1 <= fst t2 -> 1 <= fst t3 -> 1 <= fst t4 -> 1 <= fst t5 -> 1 <= fst t6 ->
     let n := length (digraph_layout L O wc i o) in n <= k ->
     exists w w', interrupted n (digraph_phases L O wc (i, o) (cs_n i + 1) (cs_n o + 1) t1 t2 t3 t4 t5 t6) k = Ok w /\
       digraph_save L O wc (i, o) t1 t2 t3 t4 t5 t6 = Ok w' /\ wf_data w = wf_data w') /\
  (forall t tc tw k, tensor_shape wc t -> (match wc with None => True | Some c => cd_size c < 256 end) -> 1 <= fst tc -> 1 <= fst tw ->
     let n := length (tensor_layout L O wc t) in n <= k ->
     exists w w', interrupted n (tensor_phases L O wc t tc tw) k = Ok w /\ tensor_save L O wc t tc tw = Ok w' /\ wf_data w = wf_data w').
Proof.
  intros W L O wc HL HO HW. split; [|split; [|split]].
  - intros c tx ty tw k Hs T1 T2 T3 n Hk. destruct (coo_save_ok L O wc HL HO HW c tx ty tw Hs T1 T2 T3) as (w' & E & _ & Hl).
    destruct (coo_phases_ok L O wc HL HO HW c tx ty tw Hs T1 T2 T3) as (A & B). pose proof E as E'. rewrite coo_save_phases in E'.
    destruct (all_stored (coo_phases L O wc c tx ty tw) n k (coo_save_size L O wc c) A) with (w' := w') as (w & Ew & Hw); [rewrite B; reflexivity|symmetry; exact Hl|exact Hk|apply head_pos; discriminate|exact E'|].
    exists w, w'. auto.
  - intros c tx ty tw k Hs HR T1 T2 T3 n Hk. pose proof (plus1_ok L _ HL (proj1 Hs) HR) as H1.
    destruct (csr_save_ok L O wc HL HO HW c tx ty tw _ Hs H1 eq_refl T1 T2 T3) as (w' & E & _ & Hl).
    destruct (csr_phases_ok L O wc HL HO HW c tx ty tw Hs T1 T2 T3) as (A & B). pose proof E as E'. rewrite (csr_save_phases L O wc c _ tx ty tw H1), Hl in E'. cbn [bind] in E'.
    destruct (all_stored (csr_phases L O wc c (cs_n c + 1) tx ty tw) n k n A) with (w' := w') as (w & Ew & Hw); [rewrite B; reflexivity|reflexivity|exact Hk|apply head_pos; discriminate|exact E'|].
    exists w, w'. auto.
  - intros i o t1 t2 t3 t4 t5 t6 k Si Ri So Ro T1 T2 T3 T4 T5 T6 n Hk. pose proof (plus1_ok L _ HL (proj1 Si) Ri) as H1. pose proof (plus1_ok L _ HL (proj1 So) Ro) as H2.
    destruct (digraph_save_ok L O wc HL HO HW i o t1 t2 t3 t4 t5 t6 _ _ Si So H1 eq_refl H2 eq_refl T1 T2 T3 T4 T5 T6) as (w' & E & _).
    destruct (csr_save_to_ok L O wc HL HO HW i t1 t2 t3 [] [] _ Si H1 eq_refl T1 T2 T3) as (si & Esi & Eli & _).
    destruct (csr_save_to_ok L O wc HL HO HW o t4 t5 t6 [] [] _ So H2 eq_refl T4 T5 T6) as (so & Eso & Elo & _).
    destruct (digraph_phases_ok L O wc HL HO HW i o t1 t2 t3 t4 t5 t6 Si So T1 T2 T3 T4 T5 T6) as (A & B). pose proof E as E'.
    rewrite (digraph_save_phases L O wc i o _ _ t1 t2 t3 t4 t5 t6 H1 H2), Esi, Eso in E'. cbn [bind] in E'.
    destruct (all_stored _ n k (length digraph_magic + si + so) A) with (w' := w') as (w & Ew & Hw); [rewrite B; reflexivity| |exact Hk|apply head_pos; discriminate|exact E'|].
    + unfold n, digraph_layout. rewrite !app_length, Eli, Elo. change (length (text "PIGO-DiGraph-v1")) with (length digraph_magic). lia.
    + exists w, w'. auto.
  - intros t tc tw k Hs Hsz T1 T2 n Hk. destruct (tensor_save_ok L O wc HL HO HW t tc tw Hs T1 T2 Hsz) as (w' & E & _ & Hl).
    destruct (tensor_phases_ok L O wc HL HO HW t tc tw Hs Hsz T1 T2) as (A & B). pose proof E as E'. rewrite tensor_save_phases in E'.
    destruct (all_stored (tensor_phases L O wc t tc tw) n k (tensor_save_size L O wc t) A) with (w' := w') as (w & Ew & Hw); [rewrite B; reflexivity|symmetry; exact Hl|exact Hk|apply head_pos; discriminate|exact E'|].
    exists w, w'. auto.
Qed.
Print Assumptions C67_stores.

Lemma F2_cons_inv {A B} (R : A -> B -> Prop) x a l : Forall2 R (x :: a) l -> exists y b, l = y :: b /\ R x y /\ Forall2 R a b.
Proof. intros H. inversion H; subst. eauto. Qed.
Lemma F2_nil_inv {A B} (R : A -> B -> Prop) l : Forall2 R [] l -> l = [].
Proof. intros H. inversion H. reflexivity. Qed.

(** ** COO *)
Lemma keeps_stored_all {V} sz p b s (a a' : list (option V)) : keeps_stored sz p b s a a' -> in_place b s p (p + sz * length a) -> a' = a.
Proof.
  intros (HL & H) HI. apply nth_error_ext. intros i. destruct (Nat.lt_ge_cases i (length a)) as [Hi|Hi].
  - apply H. intros j Hj1 Hj2. apply HI; [|nia]. lia.
  - rewrite !(proj2 (nth_error_None _ _)) by lia. reflexivity.
Qed.

Lemma in_place_join b s p q r : in_place b s p q -> in_place b s q r -> in_place b s p r.
Proof. intros H1 H2 i Hi Hr. destruct (Nat.lt_ge_cases i q); auto. Qed.
Lemma in_place_sub b s p q p' q' : in_place b s p q -> p <= p' -> q' <= q -> in_place b s p' q'.
Proof. intros H Hp Hq i H1 H2. apply H; lia. Qed.

Lemma wsz_pos {W} (wm : option (wmode W)) P l : wfit (wbin wm) P l -> match wbin wm with None => True | Some cd => 0 < cd_size cd < 256 end.
Proof. destruct (wbin wm); cbn [wfit]; [intros ((H & _) & H2 & _); auto|auto]. Qed.

Lemma wsz_pos1 {W} (wc : option (codec W)) : match wc with None => True | Some cd => 0 < cd_size cd < 256 end -> match wc with None => True | Some cd => 0 < cd_size cd end.
Proof. destruct wc; lia. Qed.

Lemma weight_size_le {W} (wc : option (codec W)) m m' : m' <= m -> weight_size wc m' <= weight_size wc m.
Proof. intros H. destruct wc; cbn [weight_size]; nia. Qed.

(** A partly stored file whose first 13 bytes (magic string and sizes) are
    there is loaded: with at most as many entries; and, when the whole header is
    there, with all entries that have been stored. *)
Theorem C67_coo_left : forall {W} L O (wm : option (wmode W)) P fl c pg fn ft ch b s,
  is_ity L -> is_ity O -> coo_shape (wbin wm) c -> coo_full L O (wbin wm) P c -> teams ch -> 1 <= pg ->
  ft = AUTO \/ ft = PIGO_COO_BIN ->
  coo_layout L O (wbin wm) c = map Some b -> partly_stored b s -> in_place b s 0 13 ->
  ((0 < co_m c)%Z -> exists c', coo_open L O wm fl pg fn (Some s) ft ch = Ok c' /\ (0 <= co_m c' <= co_m c)%Z) /\
  (in_place b s 13 (13 + 3 * isize L + isize O) ->
    exists c', coo_open L O wm fl pg fn (Some s) ft ch = Ok c' /\ coo_remains L O (wbin wm) b s c c').
Proof.
  intros W L O wm P fl c pg fn ft ch b s HL HO Hs Hf (U1 & U2 & U3) Hpg Hft Eb HP H13.
  pose proof (wsz_pos wm P _ (proj2 (proj2 (proj2 (proj2 (proj2 (proj2 Hf))))))) as HZ. apply wsz_pos1 in HZ.
  pose proof (wfit_sized _ P _ (proj2 (proj2 (proj2 (proj2 (proj2 (proj2 Hf))))))) as HW.
  destruct (coo_read_ok L O (wbin wm) P HL HO c _ _ _ Hs Hf U1 U2 U3) as (b0 & Eb0 & _ & Hrd).
  assert (b0 = b) by (apply map_Some_inj; congruence). subst b0.
  specialize (Hrd b pg fn [] [] ltac:(rewrite app_nil_r; reflexivity)). cbv beta in Hrd.
  destruct Hf as ((nr & Er & Hr) & (nc & Ec & Hcc) & (n & En & Hn) & Fm & _). destruct Hs as (Hx & Hy & Hw).
  destruct (coo_split L O (wbin wm) c n nr nc b HL HO En Er Ec Eb) as (r & Es & Erest).
  set (m := Z.to_nat (co_m c)). assert (Em : co_m c = Z.of_nat m) by (unfold m; lia).
  assert (Lr : length r = isize L * m + isize L * m + weight_size (wbin wm) m).
  { apply (f_equal (@List.length _)) in Erest. rewrite map_length, !app_length in Erest. unfold labels in Erest. rewrite !array_raw in Erest.
    rewrite !(raw_length (cint L) _ _ (cint_f L HL)) in Erest. rewrite (wgts_length (wbin wm) HW _ m) in Erest by (rewrite <- Em; exact Hw).
    cbn [cint cd_size] in Erest. replace (length (co_x c)) with m in Erest by lia. replace (length (co_y c)) with m in Erest by lia. lia. }
  rewrite Em in Es, Fm. assert (Lb : length b = 13 + 3 * isize L + isize O + length r) by (rewrite Es, app_length, coo_head_len; reflexivity).
  rewrite (coo_head_ok L O (wbin wm) HL HO n nr nc (Z.of_nat m) b pg fn [] r) in Hrd by assumption. cbn [app] in Hrd. unfold reading in Hrd. rewrite coo_head_len in Hrd.
  rewrite (coo_tail_cut L (wbin wm) n nr nc m b 0) in Hrd by (auto using whole_room; lia). rewrite app_zeros in Hrd. injection Hrd as Hrd _.
  assert (HLp : 0 < isize L) by (destruct (cint_faithful L HL) as (H & _); exact H).
  pose proof (proj1 HP) as Lsb. split.
  - intros Hm0.
    assert (EB : b = (coo_magic ++ enc u8 (size_byte L) ++ enc u8 (size_byte O)) ++ flat_map (fun f => enc (fst f) (snd f)) [(L, nr); (L, nc); (L, n); (O, Z.of_nat m)] ++ r).
    { rewrite Es. unfold coo_head. cbn [flat_map fst snd]. rewrite app_nil_r, <- !app_assoc. reflexivity. }
    rewrite EB in HP, H13. destruct (head_partly _ _ _ s HP) as (h2 & Es2 & HF2).
    { exact H13. } { assert (0 < m) by lia. nia. }
    apply lower_ints in HF2 as (zs & -> & HF2); [|repeat (constructor; [split; assumption|]); constructor].
    apply F2_cons_inv in HF2 as (z1 & z234 & -> & (R1 & B1) & HF2). apply F2_cons_inv in HF2 as (z2 & z34 & -> & (R2 & B2) & HF2).
    apply F2_cons_inv in HF2 as (z3 & z4_ & -> & (R3 & B3) & HF2). apply F2_cons_inv in HF2 as (z4 & z_ & -> & (R4 & B4) & HF2).
    apply F2_nil_inv in HF2. cbn [fst snd] in *. specialize (B4 ltac:(lia)).
    assert (E4 : z4 = Z.of_nat (Z.to_nat z4)) by lia. rewrite E4 in *.
    match type of Es2 with s = ?A ++ ?B ++ ?C => assert (Es' : s = coo_head L O z3 z1 z2 (Z.of_nat (Z.to_nat z4)) ++ C) end.
    { rewrite Es2 at 1. unfold coo_head. cbn [map fst combine flat_map snd]. rewrite app_nil_r, <- !app_assoc. reflexivity. }
    rewrite (coo_open_head L O wm HL HO fl pg fn ft ch s z3 z1 z2 (Z.to_nat z4) _ (conj U1 (conj U2 U3)) Hpg Hft HZ Es') by
      (try assumption; rewrite Lsb, Lb, Lr; pose proof (weight_size_le (wbin wm) m (Z.to_nat z4) ltac:(lia)); nia).
    eexists. split; [reflexivity|]. cbn [co_m]. lia.
  - intros HI. assert (Hh : in_place b s 0 (length (coo_head L O n nr nc (Z.of_nat m)))) by (rewrite coo_head_len; exact (in_place_join _ _ _ _ _ H13 HI)).
    rewrite Es in Hh. apply head_in_place in Hh.
    rewrite (coo_open_head L O wm HL HO fl pg fn ft ch s n nr nc m _ (conj U1 (conj U2 U3)) Hpg Hft HZ Hh) by (try assumption; lia).
    eexists. split; [reflexivity|]. unfold coo_remains. fold m. cbv zeta. cbn [co_x co_y co_w co_n co_nrows co_ncols co_m].
    set (px := 13 + 3 * isize L + isize O) in *. replace (px + isize L * m + isize L * m) with (px + 2 * (isize L * m)) by lia.
    do 4 (split; [congruence|]). rewrite <- Hrd. cbn [co_x co_y co_w].
    split; [reflexivity|]. split; [apply (keeps_stored_array (cint L))|]. split; [reflexivity|]. split; [apply (keeps_stored_array (cint L))|].
    destruct (wbin wm); [split; [reflexivity|apply keeps_stored_array]|reflexivity].
Qed.
Print Assumptions C67_coo_left.

Lemma list_two (s : list byte) p x y : nth_error s p = Some x -> nth_error s (S p) = Some y -> s = firstn p s ++ [x; y] ++ skipn (p + 2) s.
Proof.
  revert p. induction s as [|a s IH]; intros p Hx Hy; [destruct p; discriminate|]. destruct p as [|p].
  - cbn in Hx. injection Hx as ->. destruct s as [|a' s]; [discriminate|]. cbn in Hy. injection Hy as ->. reflexivity.
  - cbn [firstn plus skipn app]. f_equal. exact (IH p Hx Hy).
Qed.

Lemma size_byte_div t : is_ity t -> size_byte t = (ibits t / 8)%Z /\ enc u8 (size_byte t) = [size_byte t] /\ (0 < size_byte t < 256)%Z.
Proof. intros Ht. unfold is_ity in Ht. cbn [In] in Ht. repeat (destruct Ht as [<-|Ht]; [split; [reflexivity|split; [reflexivity|split; reflexivity]]|]). destruct Ht. Qed.

(** Not all of the 13 first bytes have been stored. *)
Lemma start_cut (b s magic : list byte) x y r k : b = magic ++ [x; y] ++ r -> (0 <= x < 256)%Z -> 0 < length r ->
  length s = length b -> in_place b s 0 k -> (forall i, k <= i -> nth_error s i = nth_error (created (length b)) i) -> k < length magic + 2 ->
  (k < length magic /\ firstn k s = firstn k magic /\ nth_error s k = Some 0%Z) \/
  exists x' rest, (0 <= x' < 256)%Z /\ s = magic ++ [x'; 0%Z] ++ rest.
Proof.
  intros Eb Hx Hr HL HI HC Hk. assert (Lb : length b = length magic + 2 + length r) by (rewrite Eb, !app_length; cbn [List.length]; lia).
  destruct (Nat.lt_ge_cases k (length magic)) as [H|H].
  - left. split; [exact H|]. split; [rewrite Eb in HI; apply (in_place_app magic ([x; y] ++ r) s k); [lia|exact HI]|].
    rewrite HC by lia. apply created_zero. lia.
  - right. assert (E1 : nth_error s (S (length magic)) = Some 0%Z) by (rewrite HC by lia; apply created_zero; lia).
    assert (E0 : exists x', (0 <= x' < 256)%Z /\ nth_error s (length magic) = Some x').
    { destruct (Nat.lt_ge_cases (length magic) k) as [H2|H2].
      - exists x. split; [exact Hx|]. rewrite HI by lia. rewrite Eb, nth_error_app2, Nat.sub_diag by lia. reflexivity.
      - exists 0%Z. split; [lia|]. rewrite HC by lia. apply created_zero. lia. }
    destruct E0 as (x' & Hx' & E0). exists x', (skipn (length magic + 2) s). split; [exact Hx'|].
    rewrite (list_two s (length magic) x' 0%Z E0 E1) at 1. f_equal.
    rewrite Eb in HI. rewrite (in_place_app magic ([x; y] ++ r) s (length magic)); [apply firstn_all|lia|].
    eapply in_place_sub; [exact HI|lia|exact H].
Qed.

Theorem C67_coo : forall {W} L O (wm : option (wmode W)) P fl c pg fn ft ch tx ty tw k,
  is_ity L -> is_ity O -> coo_shape (wbin wm) c -> coo_full L O (wbin wm) P c -> teams ch -> 1 <= pg ->
  ft = AUTO \/ ft = PIGO_COO_BIN -> 1 <= fst tx -> 1 <= fst ty -> 1 <= fst tw ->
  exists b w s, coo_layout L O (wbin wm) c = map Some b /\
    interrupted (length b) (coo_phases L O (wbin wm) c tx ty tw) k = Ok w /\ contents w s /\ partly_stored b s /\
    let px := 13 + 3 * isize L + isize O in
    let py := px + isize L * Z.to_nat (co_m c) in
    let pw := py + isize L * Z.to_nat (co_m c) in
    (4 <= k -> k < 13 -> coo_open L O wm fl pg fn (Some s) ft ch = Throw EError) /\
    (13 <= k -> (0 < co_m c)%Z -> exists c', coo_open L O wm fl pg fn (Some s) ft ch = Ok c' /\ (0 <= co_m c' <= co_m c)%Z) /\
    (px <= k -> exists c', coo_open L O wm fl pg fn (Some s) ft ch = Ok c' /\ coo_remains L O (wbin wm) b s c c' /\
      (py <= k -> co_x c' = co_x c) /\ (pw <= k -> co_y c' = co_y c) /\ (length b <= k -> c' = c)).
Proof.
  intros W L O wm P fl c pg fn ft ch tx ty tw k HL HO Hs Hf HU Hpg Hft T1 T2 T3.
  pose proof (wfit_sized _ P _ (proj2 (proj2 (proj2 (proj2 (proj2 (proj2 Hf))))))) as HW.
  destruct (coo_read_ok L O (wbin wm) P HL HO c tx ty tw Hs Hf T1 T2 T3) as (b & Eb & Nb & _).
  destruct (coo_phases_ok L O (wbin wm) HL HO HW c tx ty tw Hs T1 T2 T3) as (PP & PI). rewrite Eb in PI.
  destruct (interrupted_ok _ b k PP PI) as (w & s & Ew & Hc & HP & Hin & Hseq); [destruct b; [congruence|cbn; lia]|].
  exists b, w, s. split; [exact Eb|]. split; [exact Ew|]. split; [exact Hc|]. split; [exact HP|]. cbv zeta.
  set (px := 13 + 3 * isize L + isize O). set (m := Z.to_nat (co_m c)).
  assert (Hm : co_m c = Z.of_nat m) by (unfold m; destruct Hs; lia).
  assert (Lx : length (co_x c) = m) by (destruct Hs; lia). assert (Ly : length (co_y c) = m) by (destruct Hs as (_ & ? & _); lia).
  assert (I13 : 13 <= k -> in_place b s 0 13).
  { intros Hk. pose proof (proj2 (coo_start_seq L O)) as E. specialize (Hin (coo_start L O) _ eq_refl). rewrite E in Hin. exact (Hin Hk). }
  assert (Ix : px <= k -> in_place b s 0 px).
  { intros Hk. specialize (Hin (coo_start L O ++ coo_fields L O c) (coo_arrays L (wbin wm) c tx ty tw)). rewrite (coo_start_fields L O HL HO) in Hin.
    apply Hin; [unfold coo_phases; rewrite <- app_assoc; reflexivity|exact Hk]. }
  assert (Iy : px + isize L * m <= k -> in_place b s 0 (px + isize L * m)).
  { intros Hk. specialize (Hin ((coo_start L O ++ coo_fields L O c) ++ [Par (raw (cint L) (co_x c)) (isize L * m) tx])).
    specialize (Hin (Par (raw (cint L) (co_y c)) (isize L * m) ty :: weight_phases (wbin wm) (co_w c) m tw)).
    unfold psizes, sum_nat in Hin. rewrite map_app, fold_right_app in Hin. cbn [map psize fold_right] in Hin.
    assert (EF : forall l a, fold_right plus a l = fold_right plus 0 l + a) by (intros l a; induction l; cbn; lia).
    rewrite EF in Hin. pose proof (coo_start_fields L O HL HO c) as E. unfold psizes, sum_nat in E. rewrite E in Hin. rewrite Nat.add_0_r in Hin.
    apply Hin; [unfold coo_phases; rewrite <- !app_assoc; reflexivity|exact Hk]. }
  assert (Iw : px + isize L * m + isize L * m <= k -> in_place b s 0 (px + isize L * m + isize L * m)).
  { intros Hk. specialize (Hin ((coo_start L O ++ coo_fields L O c) ++ [Par (raw (cint L) (co_x c)) (isize L * m) tx; Par (raw (cint L) (co_y c)) (isize L * m) ty])).
    specialize (Hin (weight_phases (wbin wm) (co_w c) m tw)).
    unfold psizes, sum_nat in Hin. rewrite map_app, fold_right_app in Hin. cbn [map psize fold_right] in Hin.
    assert (EF : forall l a, fold_right plus a l = fold_right plus 0 l + a) by (intros l a; induction l; cbn; lia).
    rewrite EF in Hin. pose proof (coo_start_fields L O HL HO c) as E. unfold psizes, sum_nat in E. rewrite E in Hin. rewrite Nat.add_0_r in Hin.
    replace (13 + 3 * isize L + isize O + (isize L * m + isize L * m)) with (px + isize L * m + isize L * m) in Hin by (unfold px; lia).
    apply Hin; [unfold coo_phases; rewrite <- !app_assoc; reflexivity|exact Hk]. }
  assert (IA : length b <= k -> in_place b s 0 (length b)).
  { intros Hk. specialize (Hin (coo_phases L O (wbin wm) c tx ty tw) [] (eq_sym (app_nil_r _))).
    rewrite psizes_image, PI, map_length in Hin by exact PP. exact (Hin Hk). }
  assert (HLp : 0 < isize L) by (destruct (cint_faithful L HL) as (H & _); exact H).
  split; [|split].
  - intros H4 H13. destruct (Hseq (coo_start L O) (coo_fields L O c ++ coo_arrays L (wbin wm) c tx ty tw)) as (HI & HC);
      [reflexivity|apply coo_start_seq|rewrite (proj2 (coo_start_seq L O)); lia|].
    destruct Hf as ((nr & Er & _) & (nc & Ec & _) & (n & En & _) & _).
    destruct (coo_split L O (wbin wm) c n nr nc b HL HO En Er Ec Eb) as (r & Es & _).
    destruct (size_byte_div L HL) as (D1 & D2 & D3). destruct (size_byte_div O HO) as (D4 & D5 & D6).
    unfold coo_head in Es. rewrite D2, D5, <- !app_assoc in Es.
    destruct (start_cut b s coo_magic (size_byte L) (size_byte O) _ k Es) as [(K1 & K2 & K3)|(x' & rest & Hx' & ->)]; [lia| |exact (proj1 HP)|exact HI|exact HC|exact H13| |].
    + unfold enc. rewrite !app_length, !enc_len. cbn [cint cd_size]. lia.
    + destruct (partial_magic s coo_magic k pg fn ltac:(cbn; tauto) H4 K1 K2 K3) as (G1 & G2).
      destruct Hft as [-> | ->].
      * unfold coo_open. rewrite open_reading by (destruct s; [destruct k; discriminate|discriminate]). cbn [bind]. unfold coo_read, used. rewrite G1. reflexivity.
      * apply (C19_magic_checked L O wm fl pg fn (Some s) ch ch (lc_conv ch) (lc_conv ch)). intros s0 E0. injection E0 as <-. exact G2.
    + apply (C19_sizes_checked L O wm fl pg fn ft ch x' 0%Z rest HL HO Hx' ltac:(lia)); [right; lia|exact Hft].
  - intros Hk H0. destruct (C67_coo_left L O wm P fl c pg fn ft ch b s HL HO Hs Hf HU Hpg Hft Eb HP (I13 Hk)) as (HA & _). exact (HA H0).
  - intros Hk. assert (H13 : in_place b s 0 13) by (apply I13; unfold px in Hk; lia).
    destruct (C67_coo_left L O wm P fl c pg fn ft ch b s HL HO Hs Hf HU Hpg Hft Eb HP H13) as (_ & HB).
    destruct HB as (c' & Ec & HR); [eapply in_place_sub; [exact (Ix Hk)|lia|fold px; lia]|].
    exists c'. split; [exact Ec|]. split; [exact HR|]. unfold coo_remains in HR. fold m in HR. fold px in HR.
    destruct HR as (R1 & R2 & R3 & R4 & _ & R5 & _ & R6 & R7).
    assert (EX : px + isize L * m <= k -> co_x c' = co_x c).
    { intros H. eapply keeps_stored_all; [exact R5|]. rewrite Lx. eapply in_place_sub; [exact (Iy H)|lia|lia]. }
    assert (EY : px + isize L * m + isize L * m <= k -> co_y c' = co_y c).
    { intros H. eapply keeps_stored_all; [exact R6|]. rewrite Ly. eapply in_place_sub; [exact (Iw H)|lia|lia]. }
    split; [exact EX|]. split; [exact EY|]. intros H.
    destruct (coo_save_ok L O (wbin wm) HL HO HW c tx ty tw Hs T1 T2 T3) as (w0 & _ & _ & Hl). rewrite Eb, map_length in Hl.
    unfold coo_save_size in Hl. fold m in Hl. change (length coo_magic) with 11 in Hl.
    assert (Lb : length b = px + isize L * m + isize L * m + weight_size (wbin wm) m) by (unfold px; lia).
    assert (EW : co_w c' = co_w c).
    { destruct Hs as (_ & _ & Hw). destruct (wbin wm) as [cd|]; cbn [wlen weight_size] in *.
      - eapply keeps_stored_all; [exact (proj2 R7)|]. eapply in_place_sub; [exact (IA H)|lia|]. replace (length (co_w c)) with m by lia. lia.
      - congruence. }
    specialize (EX ltac:(lia)). specialize (EY ltac:(lia)). clear - R1 R2 R3 R4 EX EY EW. destruct c as [q1 q2 q3 q4 q5 q6 q7], c' as [z1 z2 z3 z4 z5 z6 z7]. cbn [co_x co_y co_w co_n co_nrows co_ncols co_m] in *. congruence.
Qed.
Print Assumptions C67_coo.

(** ** CSR *)
Lemma in_place_shift (pre b1 s : list byte) p q : in_place (pre ++ b1) s (length pre + p) (length pre + q) -> in_place b1 (skipn (length pre) s) p q.
Proof.
  intros H i Hi Hq. rewrite nth_skipn. rewrite H by lia. rewrite nth_error_app2 by lia. f_equal. lia.
Qed.

Lemma room_le L n n' : (n' <= n)%Z -> room L n -> room L n'.
Proof. unfold room. lia. Qed.

(** What [csr_read_ok] says about where the arrays are. *)
Lemma csr_arrays_at {W} L O (wc : option (codec W)) P c pre bc : is_ity L -> is_ity O -> csr_shape wc c -> csr_full L O wc P c -> room L (cs_n c) ->
  csr_layout L O wc c = map Some bc -> let b := pre ++ bc in
  let n1 := Z.to_nat (cs_n c + 1) in let m := Z.to_nat (cs_m c) in
  let po := length pre + 13 + 3 * isize L + isize O in let pe := po + isize O * n1 in let pw := pe + isize L * m in
  cs_off c = array_at (cint O) n1 po b /\ cs_end c = array_at (cint L) m pe b /\
  (match wc with None => cs_w c = [] | Some cd => cs_w c = array_at cd m pw b end) /\
  length b = pw + weight_size wc m /\
  exists nr nc r, cs_nrows c = Some nr /\ cs_ncols c = Some nc /\ inrange L nr = true /\ inrange L nc = true /\
    bc = csr_head L O (cs_n c) nr nc (Z.of_nat m) ++ r /\ length r = isize O * n1 + isize L * m + weight_size wc m.
Proof.
  intros HL HO Hs Hf HR Eb b n1 m po pe pw.
  pose proof (wfit_sized _ P _ (proj2 (proj2 (proj2 (proj2 (proj2 (proj2 Hf))))))) as HW.
  assert (HZ : match wc with None => True | Some cd => 0 < cd_size cd end) by (destruct wc; [apply HW|exact I]).
  destruct (csr_read_ok L O wc P HL HO c (1, []) (1, []) (1, []) Hs Hf HR (le_n _) (le_n _) (le_n _)) as (b0 & Eb0 & _ & Hrd).
  assert (b0 = bc) by (apply map_Some_inj; congruence). subst b0.
  specialize (Hrd b 1 [] pre [] ltac:(rewrite app_nil_r; reflexivity)). cbv beta in Hrd.
  destruct Hf as (Fn & Fm & (nr & Er & Hr) & (nc & Ec & Hcc) & _). destruct Hs as (H0 & Ho & He & Hw).
  destruct (csr_split L O wc c nr nc bc HL HO Er Ec Eb) as (r & Es & Erest).
  assert (Em : cs_m c = Z.of_nat m) by (unfold m; lia).
  assert (Lr : length r = isize O * n1 + isize L * m + weight_size wc m).
  { apply (f_equal (@List.length _)) in Erest. rewrite map_length, !app_length in Erest. unfold labels in Erest. rewrite !array_raw in Erest.
    rewrite (raw_length (cint L) _ _ (cint_f L HL)), (raw_length (cint O) _ _ (cint_f O HO)) in Erest. rewrite (wgts_length wc HW _ m) in Erest by (rewrite <- Em; exact Hw).
    cbn [cint cd_size] in Erest. replace (length (cs_off c)) with n1 in Erest by (unfold n1; lia). replace (length (cs_end c)) with m in Erest by lia. lia. }
  rewrite Em in Es, Fm.
  assert (Lb : length b = pw + weight_size wc m) by (unfold b, pw, pe, po; rewrite Es, !app_length, csr_head_len; lia).
  assert (ES : b = pre ++ csr_head L O (cs_n c) nr nc (Z.of_nat m) ++ r) by (unfold b; rewrite Es; reflexivity).
  pose proof (csr_read_head L O wc 1 [] b pre (cs_n c) nr nc m r (1, []) (1, []) (1, []) HL HO (le_n _) (le_n _) (le_n _) (le_n _) HZ ES Fn Hr Hcc Fm H0 HR) as X.
  cbv zeta in X. fold po n1 pe pw in X. specialize (X ltac:(lia)). rewrite X in Hrd.
  injection Hrd as Hrd _. rewrite <- Hrd. cbn [cs_off cs_end cs_w].
  split; [reflexivity|]. split; [reflexivity|]. split; [destruct wc; reflexivity|]. split; [exact Lb|].
  exists nr, nc, r. rewrite Hrd. auto 10.
Qed.

(** A CSR at some position of a partly stored file, its header in place. *)
Lemma csr_left_at {W} L O (wc : option (codec W)) P c t_o te tw pg fn pre bc post (s : list byte) : is_ity L -> is_ity O ->
  csr_shape wc c -> csr_full L O wc P c -> room L (cs_n c) -> 1 <= fst t_o -> 1 <= fst te -> 1 <= fst tw -> 1 <= pg ->
  csr_layout L O wc c = map Some bc -> let b := (pre ++ bc) ++ post in let p0 := length pre in
  length s = length b -> in_place b s p0 (p0 + (13 + 3 * isize L + isize O)) ->
  begins (skipn p0 s) csr_magic /\
  exists c', csr_read_bin L O O wc (mkRfile (mkMem s pg) p0 fn) t_o te tw = Ok (c', mkRfile (mkMem s pg) (p0 + length bc) fn) /\ csr_remains L O wc p0 b s c c'.
Proof.
  intros HL HO Hs Hf HR U1 U2 U3 Hpg Eb b p0 Hl HI.
  pose proof (wfit_sized _ P _ (proj2 (proj2 (proj2 (proj2 (proj2 (proj2 Hf))))))) as HW.
  assert (HZ : match wc with None => True | Some cd => 0 < cd_size cd end) by (destruct wc; [apply HW|exact I]).
  destruct (csr_arrays_at L O wc P c pre bc HL HO Hs Hf HR Eb) as (A1 & A2 & A3 & Lb & nr & nc & r & Er & Ec & Hr & Hcc & Es & Lr).
  set (n1 := Z.to_nat (cs_n c + 1)) in *. set (m := Z.to_nat (cs_m c)) in *.
  assert (Em : cs_m c = Z.of_nat m) by (unfold m; destruct Hs as (_ & _ & ? & _); lia).
  destruct Hf as (Fn & Fm & _). rewrite Em in Fm. pose proof (proj1 Hs) as H0.
  assert (Ls : length s = p0 + length bc + length post) by (rewrite Hl; unfold b, p0; rewrite !app_length; lia).
  assert (Lbc : length bc = 13 + 3 * isize L + isize O + length r) by (rewrite Es, app_length, csr_head_len; reflexivity).
  set (h := csr_head L O (cs_n c) nr nc (Z.of_nat m)) in *.
  assert (Lh : length h = 13 + 3 * isize L + isize O) by apply csr_head_len.
  assert (Lf : length (firstn p0 s) = p0) by (rewrite firstn_length; lia).
  assert (Hh : skipn p0 s = h ++ skipn (length h) (skipn p0 s)).
  { apply (head_in_place h (r ++ post)). replace (h ++ r ++ post) with (bc ++ post) by (rewrite Es, <- app_assoc; reflexivity).
    apply in_place_shift. fold p0. rewrite Nat.add_0_r, Lh. rewrite app_assoc. exact HI. }
  split; [rewrite Hh; apply begins_app; unfold h, csr_head; eexists _, _; reflexivity|].
  assert (ES : s = firstn p0 s ++ h ++ skipn (length h) (skipn p0 s)) by (rewrite <- Hh; symmetry; apply firstn_skipn).
  pose proof (csr_read_head L O wc pg fn s (firstn p0 s) (cs_n c) nr nc m _ t_o te tw HL HO U1 U2 U3 Hpg HZ ES Fn Hr Hcc Fm H0 HR) as X.
  cbv zeta in X. unfold reading in X. rewrite Lf in X. fold n1 in X. specialize (X ltac:(lia)). rewrite X.
  match goal with |- exists c', Ok (?C, ?F) = _ /\ _ => exists C; replace F with (mkRfile (mkMem s pg) (p0 + length bc) fn) by (f_equal; lia) end.
  split; [reflexivity|]. unfold csr_remains. fold n1 m. cbv zeta. cbn [cs_n cs_m cs_off cs_end cs_w cs_nrows cs_ncols].
  assert (AB : forall {V} (cd : codec V) n p, p + cd_size cd * n <= length (pre ++ bc) -> array_at cd n p (pre ++ bc) = array_at cd n p b).
  { intros V cd n p Hp. apply nth_error_ext. intros i. destruct (Nat.lt_ge_cases i n) as [Hi|Hi]; [|rewrite !(proj2 (nth_error_None _ _)) by (rewrite array_at_length; exact Hi); reflexivity].
    rewrite !array_at_nth by exact Hi. do 3 f_equal. apply nth_error_ext. intros j. destruct (Nat.lt_ge_cases j (cd_size cd)) as [Hj|Hj].
    - rewrite !nth_window by exact Hj. unfold b. symmetry. apply nth_error_app1. assert (cd_size cd * S i <= cd_size cd * n) by (apply Nat.mul_le_mono_l; lia). clear - Hp Hi Hj H. unfold byte in *. lia.
    - rewrite !(proj2 (nth_error_None _ _)) by (rewrite firstn_length; lia). reflexivity. }
  fold p0 in A1, A2, A3, Lb.
  rewrite (AB _ (cint O)) in A1 by (cbn [cint cd_size]; lia). rewrite (AB _ (cint L)) in A2 by (cbn [cint cd_size]; lia).
  do 4 (split; [congruence|]). rewrite A1, A2.
  split; [reflexivity|]. split; [apply (keeps_stored_array (cint O))|]. split; [reflexivity|]. split; [apply (keeps_stored_array (cint L))|].
  destruct wc as [cd|]; [|reflexivity]. split; [reflexivity|]. rewrite (AB _ cd) in A3 by (cbn [weight_size] in Lb; lia). rewrite A3. apply keeps_stored_array.
Qed.

Theorem C67_csr_left : forall {W} L O (wm : option (wmode W)) P c pg fn ft ch b s,
  is_ity L -> is_ity O -> csr_shape (wbin wm) c -> csr_full L O (wbin wm) P c -> room L (cs_n c) -> teams ch -> 1 <= pg ->
  ft = AUTO \/ ft = PIGO_CSR_BIN ->
  csr_layout L O (wbin wm) c = map Some b -> partly_stored b s -> in_place b s 0 13 ->
  (exists c', csr_open L O wm pg fn (Some s) ft ch = Ok c' /\ (0 <= cs_n c' <= cs_n c)%Z /\ (0 <= cs_m c' <= cs_m c)%Z) /\
  (in_place b s 13 (13 + 3 * isize L + isize O) ->
    exists c', csr_open L O wm pg fn (Some s) ft ch = Ok c' /\ csr_remains L O (wbin wm) 0 b s c c').
Proof.
  intros W L O wm P c pg fn ft ch b s HL HO Hs Hf HR HU Hpg Hft Eb HP H13.
  pose proof (wsz_pos wm P _ (proj2 (proj2 (proj2 (proj2 (proj2 (proj2 Hf))))))) as HZ. apply wsz_pos1 in HZ.
  destruct (csr_arrays_at L O (wbin wm) P c [] b HL HO Hs Hf HR Eb) as (_ & _ & _ & Lb & nr & nc & r & Er & Ec & Hr & Hcc & Es & Lr).
  cbn [app List.length plus] in Lb.
  assert (HOp : 0 < isize O) by (destruct (cint_faithful O HO) as (H & _); exact H).
  pose proof (proj1 HP) as Lsb. pose proof (proj1 Hs) as H0. split.
  - set (n1 := Z.to_nat (cs_n c + 1)) in *. set (m := Z.to_nat (cs_m c)) in *.
    assert (Em : cs_m c = Z.of_nat m) by (unfold m; destruct Hs as (_ & _ & ? & _); lia).
    assert (EB : b = (csr_magic ++ enc u8 (size_byte L) ++ enc u8 (size_byte O)) ++ flat_map (fun f => enc (fst f) (snd f)) [(L, cs_n c); (O, Z.of_nat m); (L, nr); (L, nc)] ++ r).
    { rewrite Es. unfold csr_head. cbn [flat_map fst snd]. rewrite app_nil_r, <- !app_assoc. reflexivity. }
    rewrite EB in HP, H13. destruct (head_partly _ _ _ s HP) as (h2 & Es2 & HF2); [exact H13|unfold n1 in Lr; nia|].
    destruct Hf as (Fn & Fm & _). rewrite Em in Fm.
    apply lower_ints in HF2 as (zs & -> & HF2); [|repeat (constructor; [split; assumption|]); constructor].
    apply F2_cons_inv in HF2 as (z1 & z234 & -> & (R1 & B1) & HF2). apply F2_cons_inv in HF2 as (z2 & z34 & -> & (R2 & B2) & HF2).
    apply F2_cons_inv in HF2 as (z3 & z4_ & -> & (R3 & B3) & HF2). apply F2_cons_inv in HF2 as (z4 & z_ & -> & (R4 & B4) & HF2).
    apply F2_nil_inv in HF2. cbn [fst snd] in *. specialize (B1 H0). specialize (B2 ltac:(lia)).
    assert (E2 : z2 = Z.of_nat (Z.to_nat z2)) by lia. rewrite E2 in *.
    match type of Es2 with s = ?A ++ ?B ++ ?C => assert (Es' : s = csr_head L O z1 z3 z4 (Z.of_nat (Z.to_nat z2)) ++ C) end.
    { rewrite Es2 at 1. rewrite HF2. unfold csr_head. cbn [map fst combine flat_map snd]. rewrite app_nil_r, <- !app_assoc. reflexivity. }
    assert (Hlen : 13 + 3 * isize L + isize O + isize O * Z.to_nat (z1 + 1) + isize L * Z.to_nat z2 + weight_size (wbin wm) (Z.to_nat z2) <= length s).
    { rewrite Lsb, Lb. pose proof (weight_size_le (wbin wm) m (Z.to_nat z2) ltac:(lia)). assert (Z.to_nat (z1 + 1) <= n1) by (unfold n1; lia). assert (Z.to_nat z2 <= m) by lia. nia. }
    rewrite (csr_open_head L O wm pg fn ft ch s z1 z3 z4 (Z.to_nat z2) _ HL HO HU Hpg Hft HZ Es' R1 R3 R4 R2 (proj1 B1) (room_le L (cs_n c) z1 (proj2 B1) HR) Hlen).
    eexists. split; [reflexivity|]. cbn [cs_n cs_m]. lia.
  - intros HI. destruct HU as (U1 & U2 & U3).
    destruct (csr_left_at L O (wbin wm) P c (lc_b1 ch) (lc_b2 ch) (lc_b3 ch) pg fn [] b [] s HL HO Hs Hf HR U1 U2 U3 Hpg Eb) as (HB & c' & E & HC).
    { cbn [app]. rewrite app_nil_r. exact Lsb. }
    { cbn [app List.length plus]. rewrite app_nil_r. exact (in_place_join _ _ _ _ _ H13 HI). }
    cbn [app List.length skipn] in HB, E, HC. rewrite app_nil_r in HC. exists c'. split; [|exact HC].
    unfold csr_open. rewrite open_reading by (destruct HB as (? & ? & ->); discriminate). cbn [bind]. unfold csr_read.
    rewrite (guess_begins_ft ft _ PIGO_CSR_BIN Hft); [|discriminate|].
    + cbn [bind]. unfold csr_direct, reading. cbn [List.length]. rewrite E. reflexivity.
    + eapply (guess_csr _ pg fn [] _); [reflexivity|exact HB].
Qed.
Print Assumptions C67_csr_left.

Lemma psizes_app ps qs : psizes (ps ++ qs) = psizes ps + psizes qs.
Proof. unfold psizes. rewrite map_app. unfold sum_nat. induction (map psize ps) as [|x l IH]; cbn [app fold_right]; lia. Qed.

(** The CSR that remains, when its arrays are in place. *)
Lemma csr_complete {W} L O (wc : option (codec W)) p0 b s (c c' : csr W) : csr_shape wc c -> csr_remains L O wc p0 b s c c' ->
  let n1 := Z.to_nat (cs_n c + 1) in let m := Z.to_nat (cs_m c) in
  let po := p0 + 13 + 3 * isize L + isize O in let pe := po + isize O * n1 in let pw := pe + isize L * m in
  (in_place b s po pe -> cs_off c' = cs_off c) /\ (in_place b s pe pw -> cs_end c' = cs_end c) /\
  (in_place b s po (pw + weight_size wc m) -> c' = c).
Proof.
  intros (H0 & Ho & He & Hw) HR n1 m po pe pw. unfold csr_remains in HR. fold n1 m in HR. fold po in HR. fold pe in HR. fold pw in HR.
  destruct HR as (R1 & R2 & R3 & R4 & _ & R5 & _ & R6 & R7).
  assert (Lo : length (cs_off c) = n1) by (unfold n1; lia). assert (Le : length (cs_end c) = m) by (unfold m; lia).
  assert (EX : in_place b s po pe -> cs_off c' = cs_off c) by (intros H; eapply keeps_stored_all; [exact R5|rewrite Lo; exact H]).
  assert (EY : in_place b s pe pw -> cs_end c' = cs_end c) by (intros H; eapply keeps_stored_all; [exact R6|rewrite Le; exact H]).
  split; [exact EX|]. split; [exact EY|]. intros H.
  assert (EW : cs_w c' = cs_w c).
  { destruct wc as [cd|]; cbn [wlen weight_size] in *; [|congruence]. eapply keeps_stored_all; [exact (proj2 R7)|]. eapply in_place_sub; [exact H|unfold pw, pe; lia|].
    replace (length (cs_w c)) with m by (unfold m; lia). lia. }
  assert (EX' : cs_off c' = cs_off c) by (apply EX; eapply in_place_sub; [exact H|lia|unfold pw; lia]).
  assert (EY' : cs_end c' = cs_end c) by (apply EY; eapply in_place_sub; [exact H|unfold pe; lia|lia]).
  clear - R1 R2 R3 R4 EX' EY' EW. destruct c as [q1 q2 q3 q4 q5 q6 q7], c' as [z1 z2 z3 z4 z5 z6 z7]. cbn [cs_off cs_end cs_w cs_n cs_nrows cs_ncols cs_m] in *. congruence.
Qed.

Theorem C67_csr : forall {W} L O (wm : option (wmode W)) P c pg fn ft ch t_o te tw k,
  is_ity L -> is_ity O -> csr_shape (wbin wm) c -> csr_full L O (wbin wm) P c -> room L (cs_n c) -> teams ch -> 1 <= pg ->
  ft = AUTO \/ ft = PIGO_CSR_BIN -> 1 <= fst t_o -> 1 <= fst te -> 1 <= fst tw ->
  exists b w s, csr_layout L O (wbin wm) c = map Some b /\
    interrupted (length b) (csr_phases L O (wbin wm) c (cs_n c + 1) t_o te tw) k = Ok w /\ contents w s /\ partly_stored b s /\
    let po := 13 + 3 * isize L + isize O in
    let pe := po + isize O * Z.to_nat (cs_n c + 1) in
    let pw := pe + isize L * Z.to_nat (cs_m c) in
    (4 <= k -> k < 13 -> csr_open L O wm pg fn (Some s) ft ch = Throw EError) /\
    (13 <= k -> exists c', csr_open L O wm pg fn (Some s) ft ch = Ok c' /\ (0 <= cs_n c' <= cs_n c)%Z /\ (0 <= cs_m c' <= cs_m c)%Z) /\
    (po <= k -> exists c', csr_open L O wm pg fn (Some s) ft ch = Ok c' /\ csr_remains L O (wbin wm) 0 b s c c' /\
      (pe <= k -> cs_off c' = cs_off c) /\ (pw <= k -> cs_end c' = cs_end c) /\ (length b <= k -> c' = c)).
Proof.
  intros W L O wm P c pg fn ft ch t_o te tw k HL HO Hs Hf HR HU Hpg Hft T1 T2 T3.
  pose proof (wfit_sized _ P _ (proj2 (proj2 (proj2 (proj2 (proj2 (proj2 Hf))))))) as HW.
  destruct (csr_read_ok L O (wbin wm) P HL HO c t_o te tw Hs Hf HR T1 T2 T3) as (b & Eb & Nb & _).
  destruct (csr_phases_ok L O (wbin wm) HL HO HW c t_o te tw Hs T1 T2 T3) as (PP & PI). rewrite Eb in PI.
  destruct (interrupted_ok _ b k PP PI) as (w & s & Ew & Hc & HP & Hin & Hseq); [destruct b; [congruence|cbn; lia]|].
  exists b, w, s. split; [exact Eb|]. split; [exact Ew|]. split; [exact Hc|]. split; [exact HP|]. cbv zeta.
  set (po := 13 + 3 * isize L + isize O). set (m := Z.to_nat (cs_m c)). set (n1 := Z.to_nat (cs_n c + 1)).
  assert (I13 : 13 <= k -> in_place b s 0 13).
  { intros Hk. pose proof (proj2 (csr_start_seq L O)) as E. specialize (Hin (csr_start L O) _ eq_refl). rewrite E in Hin. exact (Hin Hk). }
  assert (Ix : po <= k -> in_place b s 0 po).
  { intros Hk. specialize (Hin (csr_start L O ++ csr_fields L O c) (csr_arrays L O (wbin wm) c (cs_n c + 1) t_o te tw)). rewrite (csr_start_fields L O HL HO) in Hin.
    apply Hin; [unfold csr_phases; rewrite <- app_assoc; reflexivity|exact Hk]. }
  assert (Iy : po + isize O * n1 <= k -> in_place b s 0 (po + isize O * n1)).
  { intros Hk. specialize (Hin ((csr_start L O ++ csr_fields L O c) ++ [Par (raw (cint O) (cs_off c)) (isize O * n1) t_o])).
    specialize (Hin (Par (raw (cint L) (cs_end c)) (isize L * m) te :: weight_phases (wbin wm) (cs_w c) m tw)).
    rewrite psizes_app, (csr_start_fields L O HL HO) in Hin. unfold psizes, sum_nat in Hin. cbn [map psize fold_right] in Hin. rewrite Nat.add_0_r in Hin.
    apply Hin; [unfold csr_phases; rewrite <- !app_assoc; reflexivity|exact Hk]. }
  assert (Iw : po + isize O * n1 + isize L * m <= k -> in_place b s 0 (po + isize O * n1 + isize L * m)).
  { intros Hk. specialize (Hin ((csr_start L O ++ csr_fields L O c) ++ [Par (raw (cint O) (cs_off c)) (isize O * n1) t_o; Par (raw (cint L) (cs_end c)) (isize L * m) te])).
    specialize (Hin (weight_phases (wbin wm) (cs_w c) m tw)).
    rewrite psizes_app, (csr_start_fields L O HL HO) in Hin. unfold psizes, sum_nat in Hin. cbn [map psize fold_right] in Hin. rewrite Nat.add_0_r, Nat.add_assoc in Hin.
    apply Hin; [unfold csr_phases; rewrite <- !app_assoc; reflexivity|exact Hk]. }
  assert (IA : length b <= k -> in_place b s 0 (length b)).
  { intros Hk. specialize (Hin (csr_phases L O (wbin wm) c (cs_n c + 1) t_o te tw) [] (eq_sym (app_nil_r _))).
    rewrite psizes_image, PI, map_length in Hin by exact PP. exact (Hin Hk). }
  assert (HLp : 0 < isize L) by (destruct (cint_faithful L HL) as (H & _); exact H).
  destruct (csr_arrays_at L O (wbin wm) P c [] b HL HO Hs Hf HR Eb) as (_ & _ & _ & Lb & nr & nc & r & Er & Ec & _ & _ & Es & _).
  cbn [app List.length plus] in Lb. fold n1 m in Lb.
  split; [|split].
  - intros H4 H13. destruct (Hseq (csr_start L O) (csr_fields L O c ++ csr_arrays L O (wbin wm) c (cs_n c + 1) t_o te tw)) as (HI & HC);
      [reflexivity|apply csr_start_seq|rewrite (proj2 (csr_start_seq L O)); lia|].
    destruct (size_byte_div L HL) as (D1 & D2 & D3). destruct (size_byte_div O HO) as (D4 & D5 & D6).
    unfold csr_head in Es. rewrite D2, D5, <- !app_assoc in Es.
    destruct (start_cut b s csr_magic (size_byte L) (size_byte O) _ k Es) as [(K1 & K2 & K3)|(x' & rest & Hx' & ->)]; [lia| |exact (proj1 HP)|exact HI|exact HC|exact H13| |].
    + unfold enc. rewrite !app_length, !enc_len. cbn [cint cd_size]. lia.
    + destruct (partial_magic s csr_magic k pg fn ltac:(cbn; tauto) H4 K1 K2 K3) as (G1 & G2).
      destruct Hft as [-> | ->].
      * unfold csr_open. rewrite open_reading by (destruct s; [destruct k; discriminate|discriminate]). cbn [bind]. unfold csr_read, used. rewrite G1. reflexivity.
      * apply (C19_magic_checked_csr L O wm no_flags pg fn (Some s) ch). intros s0 E0. injection E0 as <-. exact G2.
    + apply (C19_sizes_checked L O wm no_flags pg fn ft ch x' 0%Z rest HL HO Hx' ltac:(lia)); [right; lia|exact Hft].
  - intros Hk. apply (C67_csr_left L O wm P c pg fn ft ch b s HL HO Hs Hf HR HU Hpg Hft Eb HP (I13 Hk)).
  - intros Hk. assert (H13 : in_place b s 0 13) by (apply I13; unfold po in Hk; lia).
    destruct (C67_csr_left L O wm P c pg fn ft ch b s HL HO Hs Hf HR HU Hpg Hft Eb HP H13) as (_ & HB).
    destruct HB as (c' & Ec' & HRm); [eapply in_place_sub; [exact (Ix Hk)|lia|fold po; lia]|].
    exists c'. split; [exact Ec'|]. split; [exact HRm|].
    destruct (csr_complete L O (wbin wm) 0 b s c c' Hs HRm) as (Q1 & Q2 & Q3). fold n1 m in Q1, Q2, Q3. cbn [plus] in Q1, Q2, Q3.
    split; [intros H; apply Q1; eapply in_place_sub; [exact (Iy H)|lia|unfold po; lia]|].
    split; [intros H; apply Q2; eapply in_place_sub; [exact (Iw H)|lia|unfold po; lia]|].
    intros H. apply Q3. eapply in_place_sub; [exact (IA H)|lia|lia].
Qed.
Print Assumptions C67_csr.

(** ** DiGraph *)
Theorem C67_digraph_left : forall {W} L O (wm : option (wmode W)) P i o pg fn ft ch1 ch2 c1 c2 b s,
  is_ity L -> is_ity O ->
  csr_shape (wbin wm) i -> csr_full L O (wbin wm) P i -> room L (cs_n i) ->
  csr_shape (wbin wm) o -> csr_full L O (wbin wm) P o -> room L (cs_n o) ->
  teams ch1 -> teams ch2 -> 1 <= pg -> ft = AUTO \/ ft = PIGO_DIGRAPH_BIN ->
  digraph_layout L O (wbin wm) i o = map Some b -> partly_stored b s ->
  let h := 13 + 3 * isize L + isize O in
  let p2 := 15 + length (csr_layout L O (wbin wm) i) in
  in_place b s 0 (15 + h) -> in_place b s p2 (p2 + h) ->
  exists i' o', digraph_open L O wm pg fn (Some s) ft ch1 ch2 c1 c2 = Ok (i', o') /\
    csr_remains L O (wbin wm) 15 b s i i' /\ csr_remains L O (wbin wm) p2 b s o o'.
Proof.
  intros W L O wm P i o pg fn ft ch1 ch2 c1 c2 b s HL HO Si Fi Ri So Fo Ro (U1 & U2 & U3) (V1 & V2 & V3) Hpg Hft Eb HP h p2 HI1 HI2.
  destruct (csr_read_ok L O (wbin wm) P HL HO i _ _ _ Si Fi Ri U1 U2 U3) as (bi & Ei & Ni & _).
  destruct (csr_read_ok L O (wbin wm) P HL HO o _ _ _ So Fo Ro V1 V2 V3) as (bo & Eo & _ & _).
  assert (EB : b = (digraph_magic ++ bi) ++ bo).
  { apply map_Some_inj. rewrite <- Eb. unfold digraph_layout. rewrite Ei, Eo, !map_app, <- app_assoc. reflexivity. }
  assert (Lp : p2 = length (digraph_magic ++ bi)) by (unfold p2; rewrite Ei, map_length, app_length; reflexivity).
  pose proof (proj1 HP) as Ls.
  destruct (csr_left_at L O (wbin wm) P i (lc_b1 ch1) (lc_b2 ch1) (lc_b3 ch1) pg fn digraph_magic bi bo s HL HO Si Fi Ri U1 U2 U3 Hpg Ei) as (HB1 & i' & E1 & HC1).
  { rewrite <- EB. exact Ls. } { rewrite <- EB. change (length digraph_magic) with 15. eapply in_place_sub; [exact HI1|lia|unfold h; lia]. }
  destruct (csr_left_at L O (wbin wm) P o (lc_b1 ch2) (lc_b2 ch2) (lc_b3 ch2) pg fn (digraph_magic ++ bi) bo [] s HL HO So Fo Ro V1 V2 V3 Hpg Eo) as (HB2 & o' & E2 & HC2).
  { rewrite app_nil_r, <- EB. exact Ls. } { rewrite app_nil_r, <- EB, <- Lp. exact HI2. }
  rewrite <- EB in HC1. rewrite app_nil_r, <- EB in HC2. rewrite <- Lp in *. change (length digraph_magic) with 15 in *.
  exists i', o'. split; [|split; assumption].
  assert (Es : s = digraph_magic ++ skipn 15 s).
  { apply (head_in_place digraph_magic (bi ++ bo)). rewrite app_assoc, <- EB. eapply in_place_sub; [exact HI1|lia|change (length digraph_magic) with 15; lia]. }
  unfold digraph_open. rewrite open_reading by (rewrite Es; discriminate). cbn [bind]. unfold digraph_read.
  rewrite (guess_begins_ft ft _ PIGO_DIGRAPH_BIN Hft); [|discriminate|].
  2:{ eapply (guess_digraph s pg fn [] s); [reflexivity|]. rewrite Es. destruct HB1 as (x & y & ->). eexists _, _. reflexivity. }
  cbn [bind]. rewrite (rd_str_ok s pg fn [] digraph_magic (skipn 15 s)); [|exact Es|destruct HB1 as (x & y & ->); discriminate].
  cbn [bind app]. unfold csr_read at 1. rewrite (guess_begins_ft AUTO _ PIGO_CSR_BIN (or_introl eq_refl)); [|discriminate|].
  2:{ eapply (guess_csr s pg fn digraph_magic (skipn 15 s)); [exact Es|exact HB1]. }
  cbn [bind]. unfold csr_direct. unfold reading. change (length digraph_magic) with 15. rewrite E1. cbn [bind].
  replace (15 + length bi) with p2 by (rewrite Lp, app_length; reflexivity).
  assert (Lf : length (firstn p2 s) = p2) by (rewrite firstn_length, Ls, EB, app_length, <- Lp; lia).
  unfold csr_read. rewrite (guess_begins_ft AUTO _ PIGO_CSR_BIN (or_introl eq_refl)); [|discriminate|].
  2:{ pose proof (guess_csr s pg fn (firstn p2 s) (skipn p2 s) (eq_sym (firstn_skipn p2 s)) HB2) as G. unfold reading in G. rewrite Lf in G. exact G. }
  cbn [bind]. unfold csr_direct. rewrite E2. reflexivity.
Qed.
Print Assumptions C67_digraph_left.

Theorem C67_digraph : forall {W} L O (wm : option (wmode W)) P i o pg fn ft ch1 ch2 c1 c2 t1 t2 t3 t4 t5 t6 k,
  is_ity L -> is_ity O ->
  csr_shape (wbin wm) i -> csr_full L O (wbin wm) P i -> room L (cs_n i) ->
  csr_shape (wbin wm) o -> csr_full L O (wbin wm) P o -> room L (cs_n o) ->
  teams ch1 -> teams ch2 -> 1 <= pg -> ft = AUTO \/ ft = PIGO_DIGRAPH_BIN ->
  1 <= fst t1 -> 1 <= fst t2 -> 1 <= fst t3 -> 1 <= fst t4 -> 1 <= fst t5 -> 1 <= fst t6 ->
  exists b w s, digraph_layout L O (wbin wm) i o = map Some b /\
    interrupted (length b) (digraph_phases L O (wbin wm) (i, o) (cs_n i + 1) (cs_n o + 1) t1 t2 t3 t4 t5 t6) k = Ok w /\ contents w s /\ partly_stored b s /\
    let p2 := 15 + length (csr_layout L O (wbin wm) i) in
    let po := p2 + 13 + 3 * isize L + isize O in
    (4 <= k -> k < 15 -> digraph_open L O wm pg fn (Some s) ft ch1 ch2 c1 c2 = Throw EError) /\
    (po <= k -> exists o', digraph_open L O wm pg fn (Some s) ft ch1 ch2 c1 c2 = Ok (i, o') /\ csr_remains L O (wbin wm) p2 b s o o' /\
      (length b <= k -> o' = o)).
Proof.
  intros W L O wm P i o pg fn ft ch1 ch2 c1 c2 t1 t2 t3 t4 t5 t6 k HL HO Si Fi Ri So Fo Ro HU HV Hpg Hft T1 T2 T3 T4 T5 T6.
  pose proof (wfit_sized _ P _ (proj2 (proj2 (proj2 (proj2 (proj2 (proj2 Fi))))))) as HW.
  destruct (csr_read_ok L O (wbin wm) P HL HO i t1 t2 t3 Si Fi Ri T1 T2 T3) as (bi & Ei & Ni & _).
  destruct (csr_read_ok L O (wbin wm) P HL HO o t4 t5 t6 So Fo Ro T4 T5 T6) as (bo & Eo & _ & _).
  set (b := (digraph_magic ++ bi) ++ bo).
  assert (Eb : digraph_layout L O (wbin wm) i o = map Some b).
  { unfold digraph_layout, b. rewrite Ei, Eo, !map_app, <- app_assoc. reflexivity. }
  destruct (digraph_phases_ok L O (wbin wm) HL HO HW i o t1 t2 t3 t4 t5 t6 Si So T1 T2 T3 T4 T5 T6) as (PP & PI). rewrite Eb in PI.
  destruct (interrupted_ok _ b k PP PI) as (w & s & Ew & Hc & HP & Hin & Hseq); [cbn; lia|].
  exists b, w, s. split; [exact Eb|]. split; [exact Ew|]. split; [exact Hc|]. split; [exact HP|]. cbv zeta.
  set (p2 := 15 + length (csr_layout L O (wbin wm) i)).
  assert (Lp : p2 = length (digraph_magic ++ bi)) by (unfold p2; rewrite Ei, map_length, app_length; reflexivity).
  destruct (csr_phases_ok L O (wbin wm) HL HO HW i t1 t2 t3 Si T1 T2 T3) as (PPi & PIi).
  assert (Ps : psizes (csr_phases L O (wbin wm) i (cs_n i + 1) t1 t2 t3) = length bi) by (rewrite psizes_image, PIi, Ei, map_length by exact PPi; reflexivity).
  split.
  - intros H4 H15. destruct (Hseq [Seq (map Some digraph_magic)] (csr_phases L O (wbin wm) i (cs_n i + 1) t1 t2 t3 ++ csr_phases L O (wbin wm) o (cs_n o + 1) t4 t5 t6)) as (HI & HC);
      [reflexivity|repeat constructor|unfold psizes; cbn; lia|].
    assert (K3 : nth_error s k = Some 0%Z) by (rewrite HC by lia; apply created_zero; unfold b; rewrite !app_length; change (length digraph_magic) with 15; destruct bi; [congruence|cbn [List.length]; lia]).
    assert (K2 : firstn k s = firstn k digraph_magic) by (apply (in_place_app digraph_magic (bi ++ bo)); [change (length digraph_magic) with 15; lia|rewrite app_assoc; exact HI]).
    destruct (partial_magic s digraph_magic k pg fn ltac:(cbn; tauto) H4 H15 K2 K3) as (G1 & G2).
    destruct Hft as [-> | ->].
    + unfold digraph_open. rewrite open_reading by (destruct s; [destruct k; discriminate|discriminate]). cbn [bind]. unfold digraph_read, used. rewrite G1. reflexivity.
    + apply (C19_magic_checked_others L O wm pg fn (Some s) ch1 ch2 c1 c2). intros s0 E0. injection E0 as <-. exact G2.
  - intros Hk.
    assert (Io : in_place b s 0 (p2 + 13 + 3 * isize L + isize O)).
    { specialize (Hin (Seq (map Some digraph_magic) :: csr_phases L O (wbin wm) i (cs_n i + 1) t1 t2 t3 ++ csr_start L O ++ csr_fields L O o) (csr_arrays L O (wbin wm) o (cs_n o + 1) t4 t5 t6)).
      change (Seq (map Some digraph_magic) :: csr_phases L O (wbin wm) i (cs_n i + 1) t1 t2 t3 ++ csr_start L O ++ csr_fields L O o) with
        ([Seq (map Some digraph_magic)] ++ csr_phases L O (wbin wm) i (cs_n i + 1) t1 t2 t3 ++ csr_start L O ++ csr_fields L O o) in Hin.
      rewrite !psizes_app, Ps in Hin. rewrite <- psizes_app, (csr_start_fields L O HL HO) in Hin. change (psizes [Seq (map Some digraph_magic)]) with 15 in Hin.
      replace (15 + (length bi + (13 + 3 * isize L + isize O))) with (p2 + 13 + 3 * isize L + isize O) in Hin by (rewrite Lp, app_length; change (length digraph_magic) with 15; lia).
      apply Hin; [|exact Hk]. unfold digraph_phases. cbn [fst snd app]. unfold csr_phases at 2. rewrite <- !app_assoc. reflexivity. }
    assert (HLi : length bi = 13 + 3 * isize L + isize O + isize O * Z.to_nat (cs_n i + 1) + isize L * Z.to_nat (cs_m i) + weight_size (wbin wm) (Z.to_nat (cs_m i))).
    { destruct (csr_arrays_at L O (wbin wm) P i [] bi HL HO Si Fi Ri Ei) as (_ & _ & _ & Lb & _). exact Lb. }
    assert (HLo : length bo = 13 + 3 * isize L + isize O + isize O * Z.to_nat (cs_n o + 1) + isize L * Z.to_nat (cs_m o) + weight_size (wbin wm) (Z.to_nat (cs_m o))).
    { destruct (csr_arrays_at L O (wbin wm) P o [] bo HL HO So Fo Ro Eo) as (_ & _ & _ & Lb & _). exact Lb. }
    assert (Ep : p2 = 15 + length bi) by (rewrite Lp, app_length; reflexivity).
    destruct (C67_digraph_left L O wm P i o pg fn ft ch1 ch2 c1 c2 b s HL HO Si Fi Ri So Fo Ro HU HV Hpg Hft Eb HP) as (i' & o' & EO & HRi & HRo).
    { eapply in_place_sub; [exact Io|lia|lia]. } { fold p2. eapply in_place_sub; [exact Io|lia|lia]. }
    fold p2 in HRo. destruct (csr_complete L O (wbin wm) 15 b s i i' Si HRi) as (_ & _ & Q3).
    assert (i' = i) by (apply Q3; eapply in_place_sub; [exact Io|lia|lia]). subst i'.
    exists o'. split; [exact EO|]. split; [exact HRo|]. intros H. destruct (csr_complete L O (wbin wm) p2 b s o o' So HRo) as (_ & _ & Q). apply Q.
    assert (IA : in_place b s 0 (length b)).
    { specialize (Hin (digraph_phases L O (wbin wm) (i, o) (cs_n i + 1) (cs_n o + 1) t1 t2 t3 t4 t5 t6) [] (eq_sym (app_nil_r _))).
      rewrite psizes_image, PI, map_length in Hin by exact PP. exact (Hin H). }
    assert (Lbb : length b = p2 + length bo) by (unfold b; rewrite app_length, <- Lp; reflexivity).
    eapply in_place_sub; [exact IA|lia|lia].
Qed.
Print Assumptions C67_digraph.

(** ** Tensor *)
Lemma tensor_arrays_at {W} L O (wc : option (codec W)) P t b : is_ity L -> is_ity O -> tensor_shape wc t -> tensor_full L O wc P t -> (te_order t * te_m t <= imax O)%Z ->
  tensor_layout L O wc t = map Some b ->
  let m := Z.to_nat (te_m t) in let od := Z.to_nat (te_order t) in
  let pc := 15 + (match wc with None => 0 | Some _ => 1 end) + 2 * isize O in let pw := pc + isize L * (od * m) in
  te_c t = array_at (cint L) (od * m) pc b /\
  (match wc with None => te_w t = [] | Some cd => te_w t = array_at cd m pw b end) /\
  length b = pw + weight_size wc m /\
  exists r, b = tensor_head L O wc (Z.of_nat od) (Z.of_nat m) ++ r.
Proof.
  intros HL HO Hs Hf HR Eb m od pc pw.
  pose proof (wfit_sized _ P _ (proj2 (proj2 (proj2 Hf)))) as HW.
  assert (HZ : match wc with None => True | Some cd => 0 < cd_size cd end) by (destruct wc; [apply HW|exact I]).
  destruct (tensor_read_ok L O wc P HL HO t (1, []) (1, []) Hs Hf HR (le_n _) (le_n _)) as (b0 & Eb0 & _ & Hrd).
  assert (b0 = b) by (apply map_Some_inj; congruence). subst b0.
  specialize (Hrd b 1 [] [] [] ltac:(rewrite app_nil_r; reflexivity)). cbv beta in Hrd.
  destruct Hf as (Fo & Fm & _ & Fw). destruct Hs as (H0 & H1 & Hc & Hw).
  assert (Hsz : match wc with None => True | Some c => cd_size c < 256 end) by (destruct wc; [apply Fw|exact I]).
  destruct (tensor_split L O wc t b HL HO Hsz Eb) as (r & Es & Erest).
  assert (Em : te_m t = Z.of_nat m) by (unfold m; lia). assert (Eo : te_order t = Z.of_nat od) by (unfold od; lia).
  assert (Lr : length r = isize L * (od * m) + weight_size wc m).
  { apply (f_equal (@List.length _)) in Erest. rewrite map_length, !app_length in Erest. unfold labels in Erest. rewrite !array_raw in Erest.
    rewrite (raw_length (cint L) _ _ (cint_f L HL)) in Erest. rewrite (wgts_length wc HW _ m) in Erest by (rewrite <- Em; exact Hw).
    cbn [cint cd_size] in Erest. replace (length (te_c t)) with (od * m) in Erest by nia. lia. }
  assert (Lb : length b = pw + weight_size wc m) by (unfold pw, pc; rewrite Es, app_length, tensor_head_len; lia).
  rewrite (tensor_head_ok L O wc HL HO (te_order t) (te_m t) b 1 [] [] r) in Hrd by assumption.
  unfold reading in Hrd. cbn [app] in Hrd. rewrite tensor_head_len in Hrd. fold pc in Hrd. rewrite Em, Eo in Hrd.
  rewrite (tensor_tail_cut L O wc od m b 0) in Hrd; [|assumption|lia|assumption|lia|cbn; lia|cbn; lia|apply whole_room; lia|fold pw; lia].
  rewrite app_zeros in Hrd. injection Hrd as Hrd _. fold pw in Hrd. rewrite <- Hrd. cbn [te_c te_w].
  split; [reflexivity|]. split; [destruct wc; reflexivity|]. split; [exact Lb|]. exists r. rewrite Es, Em, Eo. reflexivity.
Qed.

Theorem C67_tensor_left : forall {W} L O (wm : option (wmode W)) P t pg fn ft ch b s,
  is_ity L -> is_ity O -> tensor_shape (wbin wm) t -> tensor_full L O (wbin wm) P t -> (te_order t * te_m t <= imax O)%Z -> teams ch -> 1 <= pg ->
  ft = AUTO \/ ft = PIGO_TENSOR_BIN ->
  tensor_layout L O (wbin wm) t = map Some b -> partly_stored b s ->
  let start := 15 + match wbin wm with None => 0 | Some _ => 1 end in
  in_place b s 0 start ->
  ((0 < te_order t)%Z -> (0 < te_m t)%Z ->
    exists t', tensor_open L O wm pg fn (Some s) ft ch = Ok t' /\ (0 <= te_order t' <= te_order t)%Z /\ (0 <= te_m t' <= te_m t)%Z) /\
  (in_place b s start (start + 2 * isize O) ->
    exists t', tensor_open L O wm pg fn (Some s) ft ch = Ok t' /\ tensor_remains L O (wbin wm) b s t t').
Proof.
  intros W L O wm P t pg fn ft ch b s HL HO Hs Hf HR HU Hpg Hft Eb HP start HI.
  pose proof (wsz_pos wm P _ (proj2 (proj2 (proj2 Hf)))) as HZ.
  destruct (tensor_arrays_at L O (wbin wm) P t b HL HO Hs Hf HR Eb) as (A1 & A2 & Lb & r & Es).
  set (m := Z.to_nat (te_m t)) in *. set (od := Z.to_nat (te_order t)) in *.
  destruct Hs as (H0 & H1 & Hc & Hw). destruct Hf as (Fo & Fm & _).
  assert (Em : te_m t = Z.of_nat m) by (unfold m; lia). assert (Eo : te_order t = Z.of_nat od) by (unfold od; lia). rewrite Em in Fm. rewrite Eo in Fo.
  assert (HLp : 0 < isize L) by (destruct (cint_faithful L HL) as (H & _); exact H).
  pose proof (proj1 HP) as Lsb.
  assert (Lr : length r = isize L * (od * m) + weight_size (wbin wm) m) by (apply (f_equal (@List.length _)) in Es; rewrite app_length, tensor_head_len in Es; lia).
  split.
  - intros P1 P2.
    set (h1 := tensor_magic ++ enc u8 (size_byte L) ++ enc u8 (size_byte O) ++ wbyte (wbin wm)).
    assert (Lh1 : length h1 = start) by (unfold h1, enc; rewrite !app_length, !enc_len, wbyte_len; reflexivity).
    assert (EB : b = h1 ++ flat_map (fun f => enc (fst f) (snd f)) [(O, Z.of_nat od); (O, Z.of_nat m)] ++ r).
    { rewrite Es. unfold tensor_head, h1. cbn [flat_map fst snd]. rewrite app_nil_r, <- !app_assoc. reflexivity. }
    rewrite EB in HP, HI. destruct (head_partly h1 _ _ s HP) as (h2 & Es2 & HF2).
    { rewrite Lh1. exact HI. } { rewrite Lr. assert (0 < od) by lia. assert (0 < m) by lia. nia. }
    apply lower_ints in HF2 as (zs & -> & HF2); [|repeat (constructor; [split; assumption|]); constructor].
    apply F2_cons_inv in HF2 as (z1 & z234 & -> & (R1 & B1) & HF2). apply F2_cons_inv in HF2 as (z2 & z34 & -> & (R2 & B2) & HF2).
    apply F2_nil_inv in HF2. cbn [fst snd] in *. specialize (B1 ltac:(lia)). specialize (B2 ltac:(lia)).
    assert (E1 : z1 = Z.of_nat (Z.to_nat z1)) by lia. assert (E2 : z2 = Z.of_nat (Z.to_nat z2)) by lia.
    match type of Es2 with s = ?A ++ ?B ++ ?C => assert (Es' : s = tensor_head L O (wbin wm) (Z.of_nat (Z.to_nat z1)) (Z.of_nat (Z.to_nat z2)) ++ C) end.
    { rewrite Es2 at 1. rewrite HF2, <- E1, <- E2. unfold tensor_head, h1. cbn [map fst combine flat_map snd]. rewrite app_nil_r, <- !app_assoc. reflexivity. }
    assert (M : Z.to_nat z1 * Z.to_nat z2 <= od * m) by (apply Nat.mul_le_mono; lia).
    assert (MZ : (Z.of_nat (Z.to_nat z1) * Z.of_nat (Z.to_nat z2) <= imax O)%Z) by (apply Z.le_trans with (te_order t * te_m t)%Z; [|exact HR]; apply Z.mul_le_mono_nonneg; lia).
    assert (Hlen : 15 + (match wbin wm with None => 0 | Some _ => 1 end) + 2 * isize O + isize L * (Z.to_nat z1 * Z.to_nat z2) + weight_size (wbin wm) (Z.to_nat z2) <= length s).
    { rewrite Lsb, Lb. pose proof (weight_size_le (wbin wm) m (Z.to_nat z2) ltac:(lia)). nia. }
    rewrite (tensor_open_head L O wm pg fn ft ch s (Z.to_nat z1) (Z.to_nat z2) _ HL HO HU Hpg Hft HZ Es' ltac:(rewrite <- E1; exact R1) ltac:(rewrite <- E2; exact R2) MZ Hlen).
    eexists. split; [reflexivity|]. cbn [te_order te_m]. lia.
  - intros HI2. assert (Hh : in_place b s 0 (length (tensor_head L O (wbin wm) (Z.of_nat od) (Z.of_nat m)))) by (rewrite tensor_head_len; exact (in_place_join _ _ _ _ _ HI HI2)).
    rewrite Es in Hh. apply head_in_place in Hh.
    rewrite (tensor_open_head L O wm pg fn ft ch s od m _ HL HO HU Hpg Hft HZ Hh Fo Fm) by (rewrite ?Em, ?Eo in *; lia).
    eexists. split; [reflexivity|]. unfold tensor_remains. fold m od. cbv zeta. cbn [te_c te_w te_order te_m].
    do 2 (split; [congruence|]). rewrite A1. split; [reflexivity|]. split; [apply (keeps_stored_array (cint L))|].
    destruct (wbin wm); [|reflexivity]. split; [reflexivity|]. rewrite A2. apply keeps_stored_array.
Qed.
Print Assumptions C67_tensor_left.

Theorem C67_tensor : forall {W} L O (wm : option (wmode W)) P t pg fn ft ch tc tw k,
  is_ity L -> is_ity O -> tensor_shape (wbin wm) t -> tensor_full L O (wbin wm) P t -> (te_order t * te_m t <= imax O)%Z -> teams ch -> 1 <= pg ->
  ft = AUTO \/ ft = PIGO_TENSOR_BIN -> 1 <= fst tc -> 1 <= fst tw ->
  exists b w s, tensor_layout L O (wbin wm) t = map Some b /\
    interrupted (length b) (tensor_phases L O (wbin wm) t tc tw) k = Ok w /\ contents w s /\ partly_stored b s /\
    let start := 15 + match wbin wm with None => 0 | Some _ => 1 end in
    let pc := start + 2 * isize O in
    let pw := pc + isize L * (Z.to_nat (te_order t) * Z.to_nat (te_m t)) in
    (4 <= k -> k < 15 -> tensor_open L O wm pg fn (Some s) ft ch = Throw EError) /\
    (start <= k -> (0 < te_order t)%Z -> (0 < te_m t)%Z ->
      exists t', tensor_open L O wm pg fn (Some s) ft ch = Ok t' /\ (0 <= te_order t' <= te_order t)%Z /\ (0 <= te_m t' <= te_m t)%Z) /\
    (pc <= k -> exists t', tensor_open L O wm pg fn (Some s) ft ch = Ok t' /\ tensor_remains L O (wbin wm) b s t t' /\
      (pw <= k -> te_c t' = te_c t) /\ (length b <= k -> t' = t)).
Proof.
  intros W L O wm P t pg fn ft ch tc tw k HL HO Hs Hf HR HU Hpg Hft T1 T2.
  pose proof (wfit_sized _ P _ (proj2 (proj2 (proj2 Hf)))) as HW.
  pose proof (wsz_pos wm P _ (proj2 (proj2 (proj2 Hf)))) as HZ.
  assert (Hsz : match wbin wm with None => True | Some c => cd_size c < 256 end) by (destruct (wbin wm); [lia|exact I]).
  destruct (tensor_read_ok L O (wbin wm) P HL HO t tc tw Hs Hf HR T1 T2) as (b & Eb & Nb & _).
  destruct (tensor_phases_ok L O (wbin wm) HL HO HW t tc tw Hs Hsz T1 T2) as (PP & PI). rewrite Eb in PI.
  destruct (interrupted_ok _ b k PP PI) as (w & s & Ew & Hc & HP & Hin & Hseq); [destruct b; [congruence|cbn; lia]|].
  exists b, w, s. split; [exact Eb|]. split; [exact Ew|]. split; [exact Hc|]. split; [exact HP|]. cbv zeta.
  set (start := 15 + match wbin wm with None => 0 | Some _ => 1 end). set (m := Z.to_nat (te_m t)). set (od := Z.to_nat (te_order t)).
  destruct (tensor_start_seq L O (wbin wm) HW) as (Sq & Sz). fold start in Sz.
  assert (Is : start <= k -> in_place b s 0 start).
  { intros Hk. specialize (Hin (tensor_start L O (wbin wm)) _ eq_refl). rewrite Sz in Hin. exact (Hin Hk). }
  assert (Ix : start + 2 * isize O <= k -> in_place b s 0 (start + 2 * isize O)).
  { intros Hk. specialize (Hin (tensor_start L O (wbin wm) ++ tensor_fields O t) (tensor_arrays L (wbin wm) t tc tw)). rewrite (tensor_start_fields L O (wbin wm) HO HW) in Hin.
    apply Hin; [unfold tensor_phases; rewrite <- app_assoc; reflexivity|exact Hk]. }
  assert (Iw : start + 2 * isize O + isize L * (od * m) <= k -> in_place b s 0 (start + 2 * isize O + isize L * (od * m))).
  { intros Hk. specialize (Hin ((tensor_start L O (wbin wm) ++ tensor_fields O t) ++ [Par (raw (cint L) (te_c t)) (isize L * od * m) tc])).
    specialize (Hin (weight_phases (wbin wm) (te_w t) m tw)).
    rewrite psizes_app, (tensor_start_fields L O (wbin wm) HO HW) in Hin. unfold psizes, sum_nat in Hin. cbn [map psize fold_right] in Hin. rewrite Nat.add_0_r, <- Nat.mul_assoc in Hin.
    apply Hin; [unfold tensor_phases, tensor_arrays; fold m od; rewrite <- !app_assoc, <- Nat.mul_assoc; reflexivity|exact Hk]. }
  assert (IA : length b <= k -> in_place b s 0 (length b)).
  { intros Hk. specialize (Hin (tensor_phases L O (wbin wm) t tc tw) [] (eq_sym (app_nil_r _))).
    rewrite psizes_image, PI, map_length in Hin by exact PP. exact (Hin Hk). }
  assert (HOp : 0 < isize O) by (destruct (cint_faithful O HO) as (H & _); exact H).
  destruct (tensor_arrays_at L O (wbin wm) P t b HL HO Hs Hf HR Eb) as (_ & _ & Lb & r & Es). fold m od in Lb, Es. fold start in Lb.
  split; [|split].
  - intros H4 H15. destruct (Hseq (tensor_start L O (wbin wm)) (tensor_fields O t ++ tensor_arrays L (wbin wm) t tc tw)) as (HI & HC);
      [reflexivity|exact Sq|rewrite Sz; unfold start; lia|].
    destruct (size_byte_div L HL) as (D1 & D2 & D3). destruct (size_byte_div O HO) as (D4 & D5 & D6).
    unfold tensor_head in Es. rewrite D2, D5, <- !app_assoc in Es.
    destruct (start_cut b s tensor_magic (size_byte L) (size_byte O) _ k Es) as [(K1 & K2 & K3)|(x' & rest & Hx' & ->)]; [lia| |exact (proj1 HP)|exact HI|exact HC|exact H15| |].
    + unfold enc. rewrite !app_length, !enc_len. cbn [cint cd_size]. lia.
    + destruct (partial_magic s tensor_magic k pg fn ltac:(cbn; tauto) H4 K1 K2 K3) as (G1 & G2).
      destruct Hft as [-> | ->].
      * unfold tensor_open. rewrite open_reading by (destruct s; [destruct k; discriminate|discriminate]). cbn [bind]. unfold tensor_read, used. rewrite G1. reflexivity.
      * apply (C19_magic_checked_others L O wm pg fn (Some s) ch ch (lc_conv ch) (lc_conv ch)). intros s0 E0. injection E0 as <-. exact G2.
    + apply (C19_sizes_checked L O wm no_flags pg fn ft ch x' 0%Z rest HL HO Hx' ltac:(lia)); [right; lia|exact Hft].
  - intros Hk. apply (C67_tensor_left L O wm P t pg fn ft ch b s HL HO Hs Hf HR HU Hpg Hft Eb HP (Is Hk)).
  - intros Hk. assert (HS0 : in_place b s 0 start) by (apply Is; lia).
    destruct (C67_tensor_left L O wm P t pg fn ft ch b s HL HO Hs Hf HR HU Hpg Hft Eb HP HS0) as (_ & HB).
    destruct HB as (t' & Et & HRm); [eapply in_place_sub; [exact (Ix Hk)|lia|fold start; lia]|].
    exists t'. split; [exact Et|]. split; [exact HRm|]. unfold tensor_remains in HRm. fold m od in HRm. fold start in HRm.
    destruct HRm as (R1 & R2 & _ & R3 & R4). destruct Hs as (H0 & H1 & Hcl & Hw).
    assert (Lc : length (te_c t) = od * m) by nia.
    assert (EX : start + 2 * isize O + isize L * (od * m) <= k -> te_c t' = te_c t).
    { intros H. eapply keeps_stored_all; [exact R3|]. rewrite Lc. eapply in_place_sub; [exact (Iw H)|lia|lia]. }
    split; [exact EX|]. intros H.
    assert (EW : te_w t' = te_w t).
    { destruct (wbin wm) as [cd|]; cbn [wlen weight_size] in *; [|congruence].
      eapply keeps_stored_all; [exact (proj2 R4)|]. eapply in_place_sub; [exact (IA H)|lia|]. replace (length (te_w t)) with m by (unfold m; lia). lia. }
    specialize (EX ltac:(lia)). clear - R1 R2 EX EW. destruct t as [q1 q2 q3 q4], t' as [z1 z2 z3 z4]. cbn [te_c te_w te_order te_m] in *. congruence.
Qed.
Print Assumptions C67_tensor.

(** ** Concrete cases

    The objects of the examples of C15 to C18; the parallel transfers are done by
    two threads, the second of which is ahead.  The COO file has 30 bytes, its
    sources begin at byte 18: after 20 stores the first source is still missing
    while the second thread has stored the others. *)
Definition ex_st : team := (2, [1; 1; 1]).
Definition after (r : res wfile) : list byte :=
  match r with Ok w => map (fun c : fcell => match fst c with Some x => x | None => 0%Z end) (wf_data w) | _ => [] end.

Example C67_applies :
  (coo_open u8 u16 ex_wm no_flags 32 ex_fn (Some (after (interrupted 30 (coo_phases u8 u16 (wbin ex_wm) ex_coo ex_st ex_st ex_st) 20))) AUTO ex_teams =
    Ok (mkCoo (map Some [0; 0; 200])%Z (map Some [0; 0; 0])%Z (map Some [0; 0; 256])%Z (Some 201)%Z (Some 201)%Z (Some 8)%Z 3)) /\
  (coo_open u8 u16 ex_wm no_flags 32 ex_fn (Some (after (interrupted 30 (coo_phases u8 u16 (wbin ex_wm) ex_coo ex_st ex_st ex_st) 12))) AUTO ex_teams = Throw EError) /\
  (csr_open u8 u8 ex_wm 32 ex_fn (Some (after (interrupted 30 (csr_phases u8 u8 (wbin ex_wm) ex_csr_ 4 ex_st ex_st ex_st) 14))) AUTO ex_teams =
    Ok (mkCsr (map Some [0; 0; 0; 0])%Z [] [] 3 0 (Some 0)%Z (Some 0)%Z)) /\
  (digraph_open u8 u8 ex_wm 32 ex_fn (Some (after (interrupted 75 (digraph_phases u8 u8 (wbin ex_wm) (ex_csr_, ex_csr_) 4 4 ex_st ex_st ex_st ex_st ex_st ex_st) 65))) AUTO ex_teams ex_teams (lc_conv ex_teams) (lc_conv ex_teams) =
    Ok (ex_csr_, mkCsr (map Some [0; 0; 2; 3])%Z (map Some [0; 0; 0])%Z (map Some [0; 0; 256])%Z 3 3 (Some 3)%Z (Some 3)%Z)) /\
  (tensor_open u16 u8 ex_wm 64 ex_fn (Some (after (interrupted 34 (tensor_phases u16 u8 (wbin ex_wm) ex_tensor ex_st ex_st) 18))) AUTO ex_teams =
    Ok (mkTensor (map Some [0; 0; 0; 0; 0; 0])%Z (map Some [0; 256])%Z 3 2)).
Proof. repeat split; vm_compute; reflexivity. Qed.

(** The exception of the first clause: the file of a COO without entries is
    its header, whose last byte is the highest byte of the number of entries and
    is 1 in a new file.  Interrupted before it is stored, the file announces 256
    entries of which nothing is there. *)
Definition ex_empty : coo Z := mkCoo [] [] [] (Some 5%Z) (Some 5%Z) (Some 5%Z) 0%Z.
Example C67_empty :
  let s := after (interrupted 18 (coo_phases u8 u16 None ex_empty ex_st ex_st ex_st) 16) in
  coo_layout u8 u16 None ex_empty = map Some (chars "PIGO-COO-v1" ++ [1; 2; 5; 5; 5; 0; 0]%Z) /\
  s = (chars "PIGO-COO-v1" ++ [1; 2; 5; 5; 5; 0; 1]%Z) /\
  coo_open (W:=Z) u8 u16 None no_flags 32 ex_fn (Some s) AUTO ex_teams = UB /\
  exists c, coo_open (W:=Z) u8 u16 None no_flags 4096 ex_fn (Some s) AUTO ex_teams = Ok c /\ co_m c = 256%Z /\ co_x c = repeat (Some 0%Z) 256.
Proof. cbv zeta. split; [vm_compute; reflexivity|]. split; [vm_compute; reflexivity|]. split; [vm_compute; reflexivity|]. eexists. split; [vm_compute; reflexivity|]. split; vm_compute; reflexivity. Qed.
