(** * GraphFinal: what the adjacency reader returns *)

From Verif Require Import Base Reader Sched SchedLemmas Spec SpecGraph ReaderLemmas Coo CooLemmas CooSplit CooMain Csr SpecCsr Graph GraphSplit GraphLemmas GraphMain.

(** ** Tokens and rows *)
Definition row_toks (l : list byte) : list tok := map TInt (numerals l) ++ [TNl].

Lemma toks_from_line l : Forall (fun c => is_nl c = false) l -> forall cur, toks_from cur (l ++ [ch_nl]) = map TInt (numerals_from cur l) ++ [TNl].
Proof.
  induction 1 as [|c l Hc Hl IH]; intros cur; cbn [app toks_from numerals_from].
  - destruct cur; reflexivity.
  - rewrite Hc, !IH. destruct (is_digit c); [reflexivity|]. destruct cur; reflexivity.
Qed.

Lemma rtoks_line l s : Forall (fun c => is_nl c = false) l -> rtoks (l ++ ch_nl :: s) = row_toks l ++ rtoks s.
Proof.
  intros H. change (ch_nl :: s) with ([ch_nl] ++ s). rewrite app_assoc, rtoks_cut by (right; exists l, ch_nl; auto).
  unfold rtoks at 1. rewrite toks_from_line by exact H. reflexivity.
Qed.

Lemma lines_from_line l s : Forall (fun c => is_nl c = false) l -> forall cur, lines_from cur (l ++ ch_nl :: s) = (cur ++ l) :: lines s.
Proof.
  induction 1 as [|c l Hc Hl IH]; intros cur; cbn [app lines_from].
  - rewrite app_nil_r. reflexivity.
  - rewrite Hc, IH, <- app_assoc. reflexivity.
Qed.


Lemma lines_none s : existsb is_nl s = false -> forall cur, lines_from cur s = [].
Proof. induction s as [|c s IH]; cbn [existsb lines_from]; [reflexivity|]. intros H cur. apply orb_false_iff in H as [-> H]. apply IH. exact H. Qed.
Lemma n_nl_none s : existsb is_nl s = false -> forall cur, n_nl (toks_from cur s) = 0.
Proof.
  induction s as [|c s IH]; cbn [existsb toks_from]; intros H cur; [destruct cur; reflexivity|]. apply orb_false_iff in H as [-> H].
  destruct (is_digit c); [apply IH; exact H|]. destruct cur; cbn [flush n_nl]; apply IH; exact H.
Qed.

(** What pass 2 sees is the complete lines. *)
Lemma live_lines : forall n s, length s <= n -> live (rtoks s) [] = concat (map row_toks (lines s)).
Proof.
  induction n as [|n IH]; intros s Hn; [destruct s; [reflexivity|cbn in Hn; lia]|].
  destruct (existsb is_nl s) eqn:Hx.
  - destruct (nl_split s Hx) as (l & r & Es & Hl). rewrite Es, rtoks_line by exact Hl. unfold lines. rewrite lines_from_line by exact Hl.
    cbn [app map concat]. rewrite live_app. f_equal; [unfold row_toks; apply live_last|]. apply IH. rewrite Es, app_length in Hn. cbn [length] in Hn. lia.
  - unfold lines. rewrite lines_none by exact Hx. apply live_none. rewrite app_nil_r. apply n_nl_none. exact Hx.
Qed.

Lemma ints_row l : ints (row_toks l) = map dval (numerals l).
Proof. unfold row_toks. induction (numerals l) as [|x r IH]; [reflexivity|]. cbn [map app ints]. rewrite IH. reflexivity. Qed.
Lemma n_nl_row l : n_nl (row_toks l) = 1.
Proof. unfold row_toks. induction (numerals l) as [|x r IH]; [reflexivity|]. cbn [map app n_nl]. exact IH. Qed.
Lemma n_int_row l : n_int (row_toks l) = length (numerals l).
Proof. unfold row_toks. induction (numerals l) as [|x r IH]; [reflexivity|]. cbn [map app n_int length]. rewrite IH. reflexivity. Qed.
Lemma nlpos_row l i r : nlpos i (row_toks l ++ r) = (i + Z.of_nat (length (numerals l)))%Z :: nlpos (i + Z.of_nat (length (numerals l))) r.
Proof.
  unfold row_toks. revert i; induction (numerals l) as [|x ns IH]; intros i; cbn [map app nlpos length].
  - rewrite Z.add_0_r. reflexivity.
  - rewrite IH. f_equal; [lia|]. f_equal. lia.
Qed.

Section Rows.
  Variable b : list byte.
  Let lv := live (rtoks b) [].
  Lemma lv_b : lv = concat (map row_toks (lines b)).
  Proof. apply (live_lines (length b)). lia. Qed.

  Lemma ints_rows : ints lv = concat (adj_rows b).
  Proof. rewrite lv_b. unfold adj_rows. induction (lines b) as [|l ls IH]; [reflexivity|]. cbn [map concat]. rewrite ints_app, ints_row, IH. reflexivity. Qed.
  Lemma n_nl_rows : n_nl (rtoks b) = length (adj_rows b).
  Proof. rewrite <- (n_nl_live (rtoks b) []). fold lv. rewrite lv_b. unfold adj_rows. rewrite map_length. induction (lines b) as [|l ls IH]; [reflexivity|]. cbn [map concat length]. rewrite n_nl_app, n_nl_row, IH. reflexivity. Qed.
  Lemma n_int_rows : n_int lv = length (concat (adj_rows b)).
  Proof. rewrite <- ints_len, ints_rows. reflexivity. Qed.
  Lemma n_int_nums : n_int (rtoks b) = length (numerals b).
  Proof.
    unfold rtoks, numerals. assert (G : forall s cur, n_int (toks_from cur s) = length (numerals_from cur s)); [|apply G].
    induction s as [|c s IH]; intros cur; cbn [toks_from numerals_from]; [destruct cur; reflexivity|].
    destruct (is_digit c); [apply IH|]. destruct cur; cbn [flush]; destruct (is_nl c); cbn [n_int length]; rewrite ?IH; reflexivity.
  Qed.

  (** The running totals of the lengths of the rows. *)
  Lemma nlpos_rows : nlpos 0 lv = map (fun v => Z.of_nat (length (concat (firstn v (adj_rows b))))) (seq 1 (length (adj_rows b))).
  Proof.
    rewrite lv_b. unfold adj_rows. rewrite map_length.
    assert (G : forall ls i, nlpos i (concat (map row_toks ls)) =
       map (fun v => (i + Z.of_nat (length (concat (firstn v (map (fun l => map dval (numerals l)) ls)))))%Z) (seq 1 (length ls))).
    { clear. induction ls as [|l ls IH]; intros i; [reflexivity|]. cbn [map concat length seq]. rewrite nlpos_row, IH. f_equal.
      - cbn [firstn concat]. rewrite app_nil_r, map_length. reflexivity.
      - rewrite <- (seq_shift (length ls) 1), map_map. apply map_ext. intros v. cbn [firstn concat]. rewrite app_length, map_length. lia. }
    rewrite G. apply map_ext. intros v. lia.
  Qed.
End Rows.

(** A text that ends with a newline: all numbers are on complete lines. *)
Lemma rtoks_last b' : exists l, rtoks (b' ++ [ch_nl]) = l ++ [TNl].
Proof.
  unfold rtoks. assert (G : forall cur, exists l, toks_from cur (b' ++ [ch_nl]) = l ++ [TNl]); [|apply G].
  induction b' as [|c b' IH]; intros cur; cbn [app toks_from].
  - exists (flush cur []). destruct cur; reflexivity.
  - destruct (is_digit c); [apply IH|]. destruct (IH []) as [l El]. rewrite El.
    destruct (is_nl c); [exists (flush cur (TNl :: l))|exists (flush cur l)]; destruct cur; reflexivity.
Qed.
Lemma nums_rows b' : length (numerals (b' ++ [ch_nl])) = length (concat (adj_rows (b' ++ [ch_nl]))).
Proof. rewrite <- n_int_nums, <- n_int_rows. destruct (rtoks_last b') as [l ->]. rewrite live_last. reflexivity. Qed.
Lemma rows_pos b' : 0 < length (adj_rows (b' ++ [ch_nl])).
Proof. rewrite <- n_nl_rows. destruct (rtoks_last b') as [l ->]. rewrite n_nl_app. cbn. lia. Qed.
Lemma nums_rows_le b : length (concat (adj_rows b)) <= length (numerals b).
Proof. rewrite <- n_int_nums, <- n_int_rows. apply n_int_live. Qed.

Lemma strip_nocmt s : Forall (fun c => is_cmt c = false) s -> strip s = s.
Proof. unfold strip. induction 1 as [|c s Hc _ IH]; [reflexivity|]. cbn [strip_from]. rewrite Hc, IH. reflexivity. Qed.

Lemma is_zero_eq ds : is_zero ds = true <-> ds = [ch_0].
Proof.
  unfold is_zero. destruct ds as [|c [|? ?]]; cbn [str_eq]; split; intros H; try discriminate.
  - rewrite andb_true_r in H. apply Z.eqb_eq in H. subst; reflexivity.
  - injection H as ->. reflexivity.
  - rewrite andb_false_r in H. discriminate.
Qed.

Lemma has_z_zero b : has_z (rtoks b) = true <-> has_zero b.
Proof.
  unfold has_zero, rtoks, numerals. generalize (@nil byte) at 1 3 as cur.
  induction b as [|c b IH]; intros cur; cbn [toks_from numerals_from].
  - destruct cur as [|c cur]; cbn [flush has_z In]; [split; [discriminate|tauto]|]. rewrite orb_false_r, is_zero_eq. tauto.
  - destruct (is_digit c); [apply IH|].
    assert (G : has_z (if is_nl c then TNl :: toks_from [] b else toks_from [] b) = has_z (toks_from [] b)) by (destruct (is_nl c); reflexivity).
    destruct cur as [|c1 cur]; cbn [flush has_z In].
    + rewrite G. apply IH.
    + rewrite orb_true_iff, G, is_zero_eq, IH. tauto.
Qed.

(** ** The header *)
Lemma gap_ne_nodigit fin g : gap fin g -> g <> [] -> exists c g', g = c :: g' /\ is_digit c = false.
Proof. intros Hg Hn. destruct g as [|c g']; [congruence|]. exists c, g'. split; [reflexivity|]. eapply gap_head; exact Hg. Qed.

Lemma zset_at k v A x C : Z.of_nat (length A) = k -> zset k v (A ++ x :: C) = Ok (A ++ Some v :: C).
Proof.
  intros <-. unfold zset, aset. destruct (Z.ltb_spec (Z.of_nat (length A)) 0); [lia|]. rewrite Nat2Z.id, upd_mid, app_length. cbn [length].
  destruct (Nat.ltb_spec (length A) (length A + S (length C))); [reflexivity|lia].
Qed.

Section Head.
  Variable f : adj_file.
  Hypothesis Hf : wf_head f.
  Variable m : mem.
  Hypothesis Hm : bytes m = adj_text f.
  Let e := flen m.
  Let b := a_body f.
  Variable L O : ity.
  Hypothesis HL : is_ity L.
  Hypothesis HO : is_ity O.
  Hypothesis Hn : (dval (a_n f) <= imax L)%Z.
  Hypothesis HmO : (dval (a_m f) <= imax O)%Z.

  Lemma header_pos : exists d1 d2 d3 d4 d5 d6,
    move_to_first_int m e 0 = Ok d1 /\ read_int m L e d1 = Ok (dval (a_n f), d2) /\ move_to_next_int m e d2 = Ok d3 /\
    read_int m O e d3 = Ok (dval (a_m f), d4) /\ move_to_eol m e d4 = Ok d5 /\ move_to_next_int m e d5 = Ok d6 /\
    has m d6 b /\ d6 + length b = flen m /\ 0 < length b.
  Proof.
    destruct Hf as (Gh & Dn & Sne & Sg & Dm & Rp & Gg & Hb).
    (* the text *)
    pose proof (has_all m) as Hall. rewrite Hm in Hall. unfold adj_text in Hall. fold b in Hall.
    assert (Hlen : flen m = length (a_head f) + (length (a_n f) + (length (a_sep f) + (length (a_m f) + (length (a_post f) + S (length (a_gap f) + length b)))))).
    { unfold flen. rewrite Hm. unfold adj_text. rewrite !app_length. cbn [length]. rewrite !app_length. reflexivity. }
    apply has_app in Hall as [K1 Hall]. cbn [plus] in Hall. set (d1 := length (a_head f)) in *.
    apply has_app in Hall as [K2 Hall]. set (d2 := d1 + length (a_n f)) in *.
    apply has_app in Hall as [K3 Hall]. set (d3 := d2 + length (a_sep f)) in *.
    apply has_app in Hall as [K4 Hall]. set (d4 := d3 + length (a_m f)) in *.
    apply has_app in Hall as [K5 Hall]. set (d5 := d4 + length (a_post f)) in *.
    destruct Hall as [K6 Hall]. apply has_app in Hall as [K7 K8]. set (d6 := S d5 + length (a_gap f)) in *.
    assert (Hd6 : d6 + length b = flen m) by (unfold d6, d5, d4, d3, d2, d1; lia).
    assert (Lb : 0 < length b) by (unfold b; destruct Hb as (c & b' & E & _); rewrite E; cbn; lia).
    assert (En : exists cn an, a_n f = cn :: an) by (destruct (a_n f); [exfalso; apply Dn; reflexivity|eauto]). destruct En as (cn & an & En).
    assert (Ln : 0 < length (a_n f)) by (rewrite En; cbn; lia).
    assert (Em : exists cm am, a_m f = cm :: am) by (destruct (a_m f); [exfalso; apply Dm; reflexivity|eauto]). destruct Em as (cm & am & Em).
    assert (Lm : 0 < length (a_m f)) by (rewrite Em; cbn; lia).
    destruct (gap_ne_nodigit _ _ Sg Sne) as (cs & gs & Es & Hcs).
    assert (X1 : move_to_first_int m e 0 = Ok d1).
    { apply (move_to_first_int_gap m false e 0 (a_head f)); [exact Gh|exact K1| |discriminate]. exists cn. cbn [plus]. fold d1.
      assert (Hc : is_digit cn = true) by (destruct Dn as [_ Dn]; rewrite En in Dn; inversion Dn; assumption).
      rewrite En in K2. split; [eapply load_has; exact K2|]. split; [apply digit_not_cmt; exact Hc|]. unfold e. split; [unfold d6, d5, d4, d3, d2 in *; lia|auto]. }
    assert (X2 : read_int m L e d1 = Ok (dval (a_n f), d2)).
    { rewrite (read_int_digits m L e d1 (a_n f) cs); [|exact K2|exact Dn|unfold e; fold d2; unfold d6, d5, d4, d3 in *; lia|fold d2; rewrite Es in K3; eapply load_has; exact K3|exact Hcs].
      fold d2. rewrite read_val_fit; [reflexivity|exact HL|apply Dn|exact Hn]. }
    assert (X3 : move_to_next_int m e d2 = Ok d3).
    { pose proof (move_to_next_int_gap m false e d2 [] (a_sep f)) as G. cbn [length app] in G. rewrite Nat.add_0_r in G. fold d3 in G.
      apply G; [constructor|exact Sg|exact K3| |left; exact Sne|discriminate]. exists cm.
      assert (Hc : is_digit cm = true) by (destruct Dm as [_ Dm]; rewrite Em in Dm; inversion Dm; assumption).
      rewrite Em in K4. split; [eapply load_has; exact K4|]. split; [apply digit_not_cmt; exact Hc|]. unfold e; split; [unfold d6, d5, d4 in *; lia|auto]. }
    assert (X4 : read_int m O e d3 = Ok (dval (a_m f), d4)).
    { destruct (a_post f) as [|cp po] eqn:Ep.
      - assert (d5 = d4) by (unfold d5; cbn; lia).
        rewrite (read_int_digits m O e d3 (a_m f) ch_nl); [|exact K4|exact Dm|unfold e; fold d4; unfold d6 in *; lia|fold d4; rewrite <- H; unfold load; rewrite K6; reflexivity|reflexivity].
        fold d4. rewrite read_val_fit; [reflexivity|exact HO|apply Dm|exact HmO].
      - rewrite (read_int_digits m O e d3 (a_m f) cp); [|exact K4|exact Dm|unfold e; fold d4; unfold d6, d5 in *; lia|fold d4; eapply load_has; exact K5|apply Rp].
        fold d4. rewrite read_val_fit; [reflexivity|exact HO|apply Dm|exact HmO]. }
    assert (X5 : move_to_eol m e d4 = Ok d5).
    { apply move_to_eol_to; [apply Rp|exact K5|fold d5; unfold load; rewrite K6; reflexivity|unfold e; fold d5; unfold d6 in *; lia]. }
    assert (X6 : move_to_next_int m e d5 = Ok d6).
    { pose proof (move_to_next_int_gap m false e d5 [] (ch_nl :: a_gap f)) as G. cbn [length app] in G.
      replace (d5 + 0 + S (length (a_gap f))) with d6 in G by (unfold d6; lia).
      apply G; [constructor|apply gap_junk; [reflexivity|reflexivity|exact Gg]| | |left; discriminate|discriminate].
      - split; [exact K6|exact K7].
      - destruct Hb as (c & b' & E & Hd). fold b in E. exists c. rewrite E in K8. split; [eapply load_has; exact K8|]. split; [apply digit_not_cmt; exact Hd|].
        unfold e. split; [lia|auto]. }
    exists d1, d2, d3, d4, d5, d6. exact (conj X1 (conj X2 (conj X3 (conj X4 (conj X5 (conj X6 (conj K8 (conj Hd6 Lb)))))))).
  Qed.
End Head.

Lemma wf_adj_head f : wf_adj f -> wf_head f.
Proof. intros (H1 & H2 & H3 & H4 & H5 & H6 & H7 & (_ & H8 & _)). repeat (split; [assumption|]). exact H8. Qed.

Section Read.
  Variable f : adj_file.
  Hypothesis Hf : wf_head f.
  Variable m : mem.
  Hypothesis Hm : bytes m = adj_text f.
  Hypothesis Hsl : slack m.
  Let e := flen m.
  Let b := a_body f.
  Hypothesis Hq : quiet false b.
  Let rows := adj_rows (strip b).
  Variable L O OS : ity.
  Hypothesis HL : is_ity L.
  Hypothesis HO : is_ity O.
  Hypothesis HOS : is_ity OS.
  Let zb : bool := has_z (toks b).
  Let base : nat := if zb then 0 else 1.
  Let N := length rows.
  Let M := length (numerals (strip b)).
  Hypothesis Hn : (dval (a_n f) <= imax L)%Z.
  Hypothesis HmO : (dval (a_m f) <= imax O)%Z.
  Hypothesis Npos : 0 < N.
  Hypothesis HN : room L (Z.of_nat (base + N)).
  Hypothesis HM : (Z.of_nat M <= imax O)%Z.
  Hypothesis HMS : (Z.of_nat M <= imax OS)%Z.
  Hypothesis Hfit : Forall (fun v => v < imax L)%Z (concat rows).
  Hypothesis H2m : (2 * dval (a_m f) <= imax O)%Z.

  Definition gen_off : list (option Z) :=
    map Some (repeat 0%Z (S base) ++ map (fun v => Z.of_nat (length (concat (firstn v rows)))) (seq 1 N)).

  Lemma graph_body_gen ch : 0 < gc_T ch ->
    graph_body L O OS m 0 e ch =
      Ok (mkGbody (Z.of_nat (base + N)) (Z.of_nat M) (dval (a_n f)) (dval (a_m f))
            (mkGst gen_off (map Some (concat rows) ++ fresh (M - length (concat rows)))) (max_of (concat rows))).
  Proof.
    intros HT. pose proof Hf as (Gh & Dn & Sne & Sg & Dm & Rp & Gg & Hb0).
    assert (Hb : quiet_body b) by (split; [exact Hq|exact Hb0]).
    assert (EN0 : n_nl (toks b) = N) by apply n_nl_rows.
    assert (EM0 : n_int (toks b) = M) by apply n_int_nums.
    assert (EI0 : ints (live (toks b) []) = concat rows) by apply ints_rows.
    pose proof (ity_facts L HL) as FL. pose proof (ity_facts O HO) as FO. pose proof (ity_facts OS HOS) as FOS.
    destruct (header_pos f Hf m Hm L O HL HO Hn HmO) as (d1 & d2 & d3 & d4 & d5 & d6 & X1 & X2 & X3 & X4 & X5 & X6 & K8 & Hd6 & Lb). fold e in X1, X2, X3, X4, X5, X6.
    unfold graph_body. rewrite X1. cbn [bind]. rewrite X2. cbn [bind]. rewrite X3. cbn [bind]. rewrite X4. cbn [bind]. rewrite X5. cbn [bind]. rewrite X6. cbn [bind].
    set (T := gc_T ch) in *.
    (* the chunks and pass 1 *)
    rewrite (mapM_ok _ (fun t => (d6 + bnd b T t, d6 + bnd b T (S t)))).
    2:{ intros t Ht. apply in_seq in Ht. unfold e. apply chunk_ok; [exact Hb|exact HT|exact K8|exact Hd6|exact Hsl|lia]. }
    cbn [bind]. rewrite mapM_map. cbn [fst snd].
    rewrite (mapM_ok _ (fun t => (n_nl (toks (reg b T t)), n_int (toks (reg b T t)), has_z (toks (reg b T t))))).
    2:{ intros t Ht. apply count_ok; [exact Hb|exact HT|exact K8|exact Hd6|exact Hsl]. }
    cbn [bind]. rewrite found_zero_ok, !map_map. cbn [fst snd bind].
    rewrite existsb_has_z, toks_all by assumption. fold zb. fold base.
    assert (SNL : sum_nat (map (fun t => n_nl (toks (reg b T t))) (seq 0 T)) = N).
    { pose proof (sum_nat_seq (NL b T) (fun t => n_nl (toks (reg b T t))) T 0 (fun t _ => NL_S b Hb T HT t)) as G.
      cbn [plus] in G. unfold NL at 1 2 in G. rewrite bnd_T, firstn_all in G by assumption. cbn in G. rewrite <- EN0. exact G. }
    assert (SNI : sum_nat (map (fun t => n_int (toks (reg b T t))) (seq 0 T)) = M).
    { pose proof (sum_nat_seq (NI b T) (fun t => n_int (toks (reg b T t))) T 0 (fun t _ => NI_S b Hb T HT t)) as G.
      cbn [plus] in G. unfold NI at 1 2 in G. rewrite bnd_T, firstn_all in G by assumption. cbn in G. rewrite <- EM0. exact G. }
    rewrite SNL, SNI.
    assert (HN' : (Z.of_nat (base + N) <= imax L)%Z) by apply HN.
    rewrite (wrap_in L) by (try assumption; lia). rewrite (wrap_in O) by (try assumption; lia).
    (* the allocation *)
    unfold csr_alloc, alloc. destruct (Z.ltb_spec (Z.of_nat M) 0); [lia|]. cbn [bind].
    assert (XP : plus1 L (Z.of_nat (base + N)) = Ok (Z.of_nat (base + N) + 1)%Z).
    { unfold plus1. destruct (Z.ltb_spec (ibits L) 32); [reflexivity|]. apply arith_in; [exact HL|]. destruct HN as [_ [?|?]]; lia. }
    rewrite XP. cbn [bind]. destruct (Z.ltb_spec (Z.of_nat (base + N) + 1) 0); [lia|]. cbn [bind].
    rewrite Nat2Z.id. replace (Z.to_nat (Z.of_nat (base + N) + 1)) with (S base + N) by lia.
    (* the three stores *)
    assert (Xoff : exists B, length B = N /\
      bind (bind (zset 0 0 (fresh (S base + N))) (fun off => if zb then Ok off else zset 1 0 off)) (fun off => zset (Z.of_nat (base + N)) (wrap OS (Z.of_nat M)) off) =
      Ok (map Some (repeat 0%Z (S base)) ++ B)).
    { exists (fresh (N - 1) ++ [Some (wrap OS (Z.of_nat M))]). split; [rewrite app_length, fresh_length; cbn; lia|].
      assert (EF : fresh (V:=Z) N = fresh (N - 1) ++ [None]) by (replace N with ((N - 1) + 1) at 1 by lia; unfold fresh; rewrite repeat_app; reflexivity).
      unfold base. destruct zb; cbn [plus].
      - change (fresh (S N)) with ([] ++ @None Z :: fresh N). rewrite zset_at by reflexivity. cbn [bind app]. rewrite EF.
        change (Some 0%Z :: fresh (N - 1) ++ [None]) with ((Some 0%Z :: fresh (N - 1)) ++ [None]). rewrite zset_at; [reflexivity|]. cbn [length]. rewrite fresh_length. lia.
      - change (fresh (S (S N))) with ([] ++ @None Z :: fresh (S N)). rewrite zset_at by reflexivity. cbn [bind app].
        change (Some 0%Z :: fresh (S N)) with ([Some 0%Z] ++ @None Z :: fresh N). rewrite zset_at by reflexivity. cbn [bind app]. rewrite EF.
        change (Some 0%Z :: Some 0%Z :: fresh (N - 1) ++ [None]) with ((Some 0%Z :: Some 0%Z :: fresh (N - 1)) ++ [None]). rewrite zset_at; [reflexivity|]. cbn [length]. rewrite fresh_length. lia. }
    destruct Xoff as (B & LB & Xoff). rewrite bind_assoc in Xoff.
    destruct (zset 0 0 (fresh (S base + N))) as [o1| | |]; cbn [bind] in Xoff |- *; try discriminate.
    destruct (if zb then Ok o1 else zset 1 0 o1) as [o2| | |]; cbn [bind] in Xoff |- *; try discriminate. rewrite Xoff. cbn [bind].
    (* pass 2 *)
    assert (Pn : prefix_sums base (map (fun t => n_nl (toks (reg b T t))) (seq 0 T)) = map (fun t => base + NL b T t) (seq 0 T)).
    { pose proof (prefix_sums_seq (fun t => base + NL b T t) (fun t => n_nl (toks (reg b T t))) T 0) as G.
      cbn beta in G. assert (E0 : base + NL b T 0 = base) by (change (NL b T 0) with 0; lia). rewrite E0 in G. apply G. intros t _. rewrite (NL_S b Hb T HT). lia. }
    assert (Pi : prefix_sums 0 (map (fun t => n_int (toks (reg b T t))) (seq 0 T)) = map (NI b T) (seq 0 T)).
    { apply (prefix_sums_seq (NI b T) (fun t => n_int (toks (reg b T t))) T 0). intros t _. apply (NI_S b Hb T HT). }
    rewrite Pn, Pi, !combine_map, mapM_map.
    assert (NLle : forall t, NL b T t <= N).
    { intros t. rewrite <- EN0, (toks_rest b Hb T HT t), n_nl_app. unfold NL. lia. }
    assert (NIle : forall t, NI b T t <= M).
    { intros t. rewrite <- EM0, (toks_rest b Hb T HT t), n_int_app. unfold NI. lia. }
    set (lv := fun t => live (toks (reg b T t)) (toks (skipn (bnd b T (S t)) b))).
    rewrite (mapM_ok _ (fun t => (gprog (Z.of_nat (base + NL b T t)) (Z.of_nat (NI b T t)) (lv t), max_of (ints (lv t))))).
    2:{ intros t Ht. cbn [fst snd]. rewrite (wrap_in L) by (try assumption; specialize (NLle t); lia). rewrite (wrap_in O) by (try assumption; specialize (NIle t); lia).
        rewrite <- EN0. apply set_ok; try assumption.
        - rewrite EN0. exact HN'.
        - rewrite EM0. exact HM.
        - rewrite EI0. eapply Forall_impl; [|exact Hfit]. cbn. intros; lia. }
    cbn [bind]. rewrite !map_map. cbn [fst snd].
    rewrite run_indep.
    2:{ apply fop_map. apply fop_seq. intros i j [_ Hij] _ x y Hx Hy. apply gexec_comm.
        assert (M1 : NL b T (S i) <= NL b T j).
        { clear - Hij Hb HT. induction Hij as [|j Hij IH]; [lia|]. rewrite (NL_S b Hb T HT j). lia. }
        assert (M2 : NI b T (S i) <= NI b T j).
        { clear - Hij Hb HT. induction Hij as [|j Hij IH]; [lia|]. rewrite (NI_S b Hb T HT j). lia. }
        rewrite (NL_S b Hb T HT) in M1. rewrite (NI_S b Hb T HT) in M2.
        pose proof (n_int_live (toks (reg b T i)) (toks (skipn (bnd b T (S i)) b))) as I1. pose proof (n_nl_live (toks (reg b T i)) (toks (skipn (bnd b T (S i)) b))) as I2. fold (lv i) in I1, I2.
        pose proof (gprog_in (lv i) (Z.of_nat (base + NL b T i)) (Z.of_nat (NI b T i))) as G1. rewrite Forall_forall in G1. specialize (G1 x Hx).
        pose proof (gprog_in (lv j) (Z.of_nat (base + NL b T j)) (Z.of_nat (NI b T j))) as G2. rewrite Forall_forall in G2. specialize (G2 y Hy).
        destruct x, y; cbn [in_off in_end] in *; lia. }
    (* Before the last newline, the live tokens are all the tokens; behind it there are none. *)
    assert (EP : forall k t, k + t = T -> concat (map (fun t => gprog (Z.of_nat (base + NL b T t)) (Z.of_nat (NI b T t)) (lv t)) (seq t k)) =
        gprog (Z.of_nat (base + NL b T t)) (Z.of_nat (NI b T t)) (live (toks (skipn (bnd b T t) b)) [])).
    { induction k as [|k IH]; intros t Hk; cbn [seq map concat].
      - cbn [plus] in Hk. subst t. rewrite bnd_T, skipn_all by assumption. reflexivity.
      - rewrite IH by lia. rewrite (live_all b Hb T HT t). fold (lv t). rewrite gprog_app. f_equal.
        destruct (Nat.eq_dec (n_nl (toks (skipn (bnd b T (S t)) b))) 0) as [Ez|Ez].
        + rewrite (live_none _ []) by (rewrite app_nil_r; exact Ez). reflexivity.
        + assert (Elv : lv t = toks (reg b T t)) by (apply live_full; exact Ez). rewrite Elv.
          rewrite (NL_S b Hb T HT t), (NI_S b Hb T HT t). f_equal; lia. }
    rewrite (EP T 0 (Nat.add_0_r T)).
    change (NL b T 0) with 0. change (NI b T 0) with 0. change (skipn (bnd b T 0) b) with b. rewrite (Nat.add_0_r base). change (Z.of_nat 0) with 0%Z.
    assert (LM : n_int (live (toks b) []) = length (concat rows)) by (rewrite <- ints_len, EI0; reflexivity).
    assert (LM2 : length (concat rows) <= M) by (rewrite <- LM, <- EM0; apply n_int_live).
    assert (EF : fresh (V:=Z) M = fresh (length (concat rows)) ++ fresh (M - length (concat rows))).
    { unfold fresh. rewrite <- repeat_app. f_equal. lia. }
    pose proof (gprog_exec OS HOS (live (toks b) []) (Z.of_nat base) 0 (map Some (repeat 0%Z (S base))) B [] [] (fresh (length (concat rows))) (fresh (M - length (concat rows)))) as G.
    rewrite !app_nil_r in G. cbn [app] in G. rewrite <- EF in G. rewrite G; clear G.
    2:{ rewrite map_length, repeat_length. lia. }
    2:{ lia. }
    2:{ rewrite n_nl_live, EN0. exact LB. }
    2:{ reflexivity. }
    2:{ rewrite LM. apply fresh_length. }
    2:{ rewrite LM. lia. }
    cbn [bind g_off g_end].
    assert (EM : fold_left Z.max (map (fun t => max_of (ints (lv t))) (seq 0 T)) 0%Z = max_of (concat rows)).
    { rewrite fold_max_max_of by lia. rewrite Z.max_r by apply max_of_nonneg. rewrite <- EI0.
      assert (G : forall k t, k + t = T -> max_of (map (fun t => max_of (ints (lv t))) (seq t k)) = max_of (ints (live (toks (skipn (bnd b T t) b)) []))).
      { induction k as [|k IH]; intros t Hk; cbn [seq map].
        - cbn [plus] in Hk. subst t. rewrite bnd_T, skipn_all by assumption. reflexivity.
        - rewrite (live_all b Hb T HT t). fold (lv t). rewrite ints_app, max_of_app, <- (IH (S t)) by lia. reflexivity. }
      rewrite (G T 0 (Nat.add_0_r T)). reflexivity. }
    rewrite EM.
    assert (EO : nlpos 0 (live (toks b) []) = map (fun v => Z.of_nat (length (concat (firstn v rows)))) (seq 1 N)) by apply nlpos_rows.
    rewrite EI0, EO. unfold gen_off. rewrite map_app. reflexivity.
  Qed.

  Lemma read_graph_gen {W} ch : 0 < gc_T ch ->
    read_graph (W:=W) L O OS m 0 e ch =
      if (negb (Z.of_nat M =? 2 * dval (a_m f)) && negb (Z.of_nat M =? dval (a_m f)))%Z then Throw EError
      else if (Z.of_nat (base + N) <? dval (a_n f))%Z then Throw EError
      else Ok (mkCsr gen_off (map Some (concat rows) ++ fresh (M - length (concat rows))) [] (dval (a_n f)) (Z.of_nat M)
                 (Some (Z.of_nat (base + N))) (Some (max_of (concat rows) + 1)%Z)).
  Proof.
    intros HT. rewrite read_graph_split, graph_body_gen by exact HT. cbn [bind]. unfold graph_check.
    cbn [gb_n gb_m gb_rn gb_rm gb_st gb_max g_off g_end].
    pose proof Hf as (Gh & Dn & Sne & Sg & Dm & Rp & Gg & Hb0).
    pose proof (ity_facts L HL) as FL. pose proof (ity_facts O HO) as FO.
    assert (Ht : twice O (dval (a_m f)) = Ok (2 * dval (a_m f))%Z).
    { assert (0 <= dval (a_m f))%Z by (apply dval_nonneg; apply Dm). unfold twice. destruct (ibits O <? 32)%Z; [reflexivity|]. apply arith_in; [exact HO|lia]. }
    rewrite Ht. cbn [bind].
    destruct (negb (Z.of_nat M =? 2 * dval (a_m f))%Z && negb (Z.of_nat M =? dval (a_m f))%Z); [reflexivity|].
    destruct (Z.of_nat (base + N) <? dval (a_n f))%Z; [reflexivity|].
    assert (Hmx : (max_of (concat rows) <= imax L - 1)%Z).
    { apply max_of_le; [lia|]. eapply Forall_impl; [|exact Hfit]. cbn; intros; lia. }
    pose proof (max_of_nonneg (concat rows)).
    rewrite arith_in by (try assumption; lia). cbn [bind].
    reflexivity.
  Qed.
End Read.

(** ** Bodies without comments *)
Section Clean.
  Variable f : adj_file.
  Hypothesis Hf : wf_adj f.
  Variable m : mem.
  Hypothesis Hm : bytes m = adj_text f.
  Hypothesis Hsl : slack m.
  Let e := flen m.
  Let b := a_body f.
  Variable L O OS : ity.
  Hypothesis HL : is_ity L.
  Hypothesis HO : is_ity O.
  Hypothesis HOS : is_ity OS.
  Let zb : bool := has_z (rtoks b).
  Let base : nat := if zb then 0 else 1.
  Let N := length (adj_rows b).
  Let M := length (concat (adj_rows b)).
  Hypothesis Hn : (dval (a_n f) <= imax L)%Z.
  Hypothesis HmO : (dval (a_m f) <= imax O)%Z.
  Hypothesis HN : room L (Z.of_nat (base + N)).
  Hypothesis HM : (Z.of_nat M <= imax O)%Z.
  Hypothesis HMS : (Z.of_nat M <= imax OS)%Z.
  Hypothesis Hfit : Forall (fun v => v < imax L)%Z (concat (adj_rows b)).
  Hypothesis H2m : (2 * dval (a_m f) <= imax O)%Z.

  Definition graph_off : list (option Z) :=
    map Some (repeat 0%Z (S base) ++ map (fun v => Z.of_nat (length (concat (firstn v (adj_rows b))))) (seq 1 N)).

  Lemma read_graph_ok {W} ch : 0 < gc_T ch ->
    read_graph (W:=W) L O OS m 0 e ch =
      if (negb (Z.of_nat M =? 2 * dval (a_m f)) && negb (Z.of_nat M =? dval (a_m f)))%Z then Throw EError
      else if (Z.of_nat (base + N) <? dval (a_n f))%Z then Throw EError
      else Ok (mkCsr graph_off (map Some (concat (adj_rows b))) [] (dval (a_n f)) (Z.of_nat M)
                 (Some (Z.of_nat (base + N))) (Some (max_of (concat (adj_rows b)) + 1)%Z)).
  Proof.
    intros HT. pose proof Hf as (_ & _ & _ & _ & _ & _ & _ & Hb). destruct Hb as (Hc & Hd & (b' & Eb)). fold b in Hc, Eb.
    assert (Es : strip b = b) by (apply strip_nocmt; exact Hc).
    assert (Et : toks b = rtoks b) by (unfold toks; rewrite Es; reflexivity).
    assert (EM : length (numerals b) = M) by (unfold M; rewrite Eb; apply nums_rows).
    pose proof (read_graph_gen f (wf_adj_head f Hf) m Hm Hsl (nocmt_quiet b Hc false) L O OS HL HO HOS Hn HmO) as G.
    unfold gen_off in G. fold b in G. rewrite Es, Et, EM in G. fold zb in G. fold base in G. fold N in G. fold M in G.
    unfold e. rewrite G; try assumption; [|unfold N; rewrite Eb; apply rows_pos].
    rewrite Nat.sub_diag. cbn [fresh repeat]. rewrite app_nil_r. reflexivity.
  Qed.

  Lemma graph_body_ok ch : 0 < gc_T ch ->
    graph_body L O OS m 0 e ch =
      Ok (mkGbody (Z.of_nat (base + N)) (Z.of_nat M) (dval (a_n f)) (dval (a_m f))
            (mkGst graph_off (map Some (concat (adj_rows b)))) (max_of (concat (adj_rows b)))).
  Proof.
    intros HT. pose proof Hf as (_ & _ & _ & _ & _ & _ & _ & Hb). destruct Hb as (Hc & Hd & (b' & Eb)). fold b in Hc, Eb.
    assert (Es : strip b = b) by (apply strip_nocmt; exact Hc).
    assert (Et : toks b = rtoks b) by (unfold toks; rewrite Es; reflexivity).
    assert (EM : length (numerals b) = M) by (unfold M; rewrite Eb; apply nums_rows).
    pose proof (graph_body_gen f (wf_adj_head f Hf) m Hm Hsl (nocmt_quiet b Hc false) L O OS HL HO HOS Hn HmO) as G.
    unfold gen_off in G. fold b in G. rewrite Es, Et, EM in G. fold zb in G. fold base in G. fold N in G. fold M in G.
    unfold e. rewrite G; try assumption; [|unfold N; rewrite Eb; apply rows_pos].
    rewrite Nat.sub_diag. cbn [fresh repeat]. rewrite app_nil_r. reflexivity.
  Qed.
End Clean.
