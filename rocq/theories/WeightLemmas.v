(** * WeightLemmas: reading the weight of a line *)

From Verif Require Import Base Reader SchedLemmas Spec SpecFp ReaderLemmas Coo CooLemmas.

(** What follows position [d] in a line: text [tl], then a newline. *)
Lemma tail_char m d tl :
  has m d tl -> load m (d + length tl) = Ok ch_nl ->
  exists c, load m d = Ok c /\ match tl with [] => c = ch_nl | c' :: _ => c = c' end.
Proof.
  destruct tl as [|c tl]; intros Hh Hl; cbn [length] in *.
  - rewrite Nat.add_0_r in Hl. eauto.
  - exists c; split; [eapply load_has; exact Hh|reflexivity].
Qed.

Lemma tail_nondigit m d tl :
  rest tl -> has m d tl -> load m (d + length tl) = Ok ch_nl ->
  exists c, load m d = Ok c /\ is_digit c = false.
Proof.
  intros [_ Hr] Hh Hl. destruct (tail_char m d tl Hh Hl) as (c & E & Hc). exists c; split; [exact E|].
  destruct tl; subst; [reflexivity|exact Hr].
Qed.

(** ** Unsigned *)
Lemma wok_unsigned t post v : is_ity t -> post_unsigned post v -> (v <= imax t)%Z -> wok (wr_unsigned t) post v.
Proof.
  intros Ht [sp ds tl Hsp Hds Htl] Hv m e d Hh Hl He. cbn [w_read w_count wr_unsigned].
  rewrite !app_length in *. apply has_app in Hh as [Hh1 Hh2]. apply has_app in Hh2 as [Hh2 Hh3].
  destruct (tail_nondigit m (d + length sp + length ds) tl) as (c & Hc & Hcd); auto.
  { rewrite <- Hl. f_equal; lia. }
  assert (Emv : move_to_next_int m e d = Ok (d + length sp)).
  { destruct Hds as [Hne Hd]. destruct ds as [|c0 ds]; [congruence|].
    apply move_to_next_int_sep with (c := c0); auto.
    - eapply load_has; exact Hh2.
    - apply forall_hd in Hd; exact Hd.
    - cbn [length] in He; lia. }
  rewrite Emv. cbn [bind]. split.
  - rewrite (read_int_digits m t e (d + length sp) ds c); auto; [|lia].
    rewrite read_val_fit; [|exact Ht|apply Hds|exact Hv]. cbn [bind].
    eexists; split; [reflexivity|lia].
  - eexists; split; [reflexivity|lia].
Qed.

Lemma ce_not_cmt c : (c = 0%Z \/ is_digit c = true) -> is_cmt c = false.
Proof. intros [->|H]; [reflexivity|apply digit_not_cmt; exact H]. Qed.

Lemma wend_unsigned t : wend (wr_unsigned t).
Proof.
  intros m e c Hl Hc. cbn [w_read w_count wr_unsigned].
  rewrite (move_to_next_int_end m e c Hl (ce_not_cmt c Hc)). cbn [bind].
  rewrite read_int_end by lia. split; [eauto|reflexivity].
Qed.

(** ** Signed *)
Lemma sgn_gapS s : sgn_sep s -> gapS is_signed_start false s.
Proof.
  intros [[_ Hs] Hg]. induction Hs as [|c s (H1 & H2 & H3) Hs IH]; [apply gapS_nil|].
  inversion Hg as [|? ? [Hp Hm] Hg']; subst.
  apply gapS_junk; [|exact H3|apply IH; exact Hg'].
  unfold is_signed_start. rewrite H1, Hp, Hm. reflexivity.
Qed.

Lemma move_signed m e d s c :
  sgn_sep s -> has m d s -> load m (d + length s) = Ok c -> is_signed_start c = true ->
  d + length s < e -> move_to_next_signed_int m e d = Ok (d + length s).
Proof.
  intros Hs Hh Hl Hc He. pose proof Hs as [[Hne Hsep] Hng].
  destruct s as [|c0 s]; [congruence|].
  assert (Hl0 : load m d = Ok c0) by (eapply load_has; exact Hh).
  apply forall_hd in Hsep as Hc0. destruct Hc0 as (H1 & H2 & H3).
  apply forall_hd in Hng as Hn0. destruct Hn0 as (Hp & Hm).
  unfold move_to_next_signed_int. rewrite Hl0. cbn [bind]. rewrite Hp, Hm. cbn [orb].
  unfold move_to_non_int. rewrite (scan_stop m _ e d c0 Hl0 H1). cbn [bind].
  apply seek_from with (fin := false).
  - apply sgn_gapS; exact Hs.
  - exact Hh.
  - exists c. split; [exact Hl|]. split; [|split; [lia|intros _; exact Hc]].
    unfold is_signed_start in Hc. unfold is_cmt.
    destruct (is_digit c) eqn:Ed; [apply digit_not_cmt in Ed; exact Ed|]. cbn in Hc.
    unfold ch_plus, ch_minus, ch_pct, ch_hash in *. lia.
  - discriminate.
Qed.

Lemma wok_signed t post v : is_ity t -> isigned t = true -> post_signed post v ->
  (- imax t <= v <= imax t)%Z -> wok (wr_signed t) post v.
Proof.
  intros Ht Hsg Hpost Hv m e d Hh Hl He. cbn [w_read w_count wr_signed].
  assert (Himin : (imin t <= - imax t)%Z) by (unfold imin, imax; rewrite Hsg; lia).
  assert (Hcore : forall sp sg ds tl (neg : bool),
    sgn_sep sp -> digits ds -> rest tl -> post = sp ++ sg ++ ds ++ tl ->
    v = (if neg then - dval ds else dval ds)%Z ->
    ((sg = [] /\ neg = false) \/ (sg = [ch_plus] /\ neg = false) \/ (sg = [ch_minus] /\ neg = true)) ->
    (exists d', (d1 <- move_to_next_signed_int m e d;;
      sign <- read_sign m d1;;
      '(v0, d2) <- read_int m t e d1;; val <- arith t (v0 * sign);; Ok (val, d2)) = Ok (v, d') /\
      d <= d' <= d + length post) /\
    (exists d', move_to_next_signed_int m e d = Ok d' /\ d <= d' <= d + length post)).
  { intros sp sg ds tl neg Hsp Hds Htl -> -> Hsgn.
    rewrite !app_length in *. apply has_app in Hh as [Hh1 Hh2].
    assert (Hsd : has m (d + length sp) (sg ++ ds)).
    { rewrite app_assoc in Hh2. apply has_app in Hh2; apply Hh2. }
    apply has_app in Hh2 as [Hh2 Hh3]. apply has_app in Hh3 as [Hh3 Hh4].
    destruct (tail_nondigit m (d + length sp + length sg + length ds) tl) as (c & Hc & Hcd); auto.
    { rewrite <- Hl. f_equal; lia. }
    assert (Hne : ds <> []) by apply Hds. assert (Hd : Forall (fun c => is_digit c = true) ds) by apply Hds.
    assert (Hfirst : exists c0, load m (d + length sp) = Ok c0 /\ is_signed_start c0 = true /\
              (c0 =? ch_minus)%Z = neg).
    { destruct ds as [|c0 ds]; [congruence|]. apply forall_hd in Hd.
      destruct Hsgn as [(-> & ->)|[(-> & ->)|(-> & ->)]]; cbn [app] in Hsd.
      - exists c0. split; [eapply load_has; exact Hsd|]. unfold is_signed_start. rewrite Hd. split; [reflexivity|].
        unfold is_digit, ch_0, ch_9, ch_minus in *. lia.
      - exists ch_plus. split; [eapply load_has; exact Hsd|]. split; reflexivity.
      - exists ch_minus. split; [eapply load_has; exact Hsd|]. split; reflexivity. }
    destruct Hfirst as (c0 & Hc0 & Hst & Hneg).
    assert (Hlen : 0 < length ds) by (destruct ds; [congruence|cbn; lia]).
    rewrite (move_signed m e d sp c0) by (auto; lia). cbn [bind].
    split; [|eexists; split; [reflexivity|lia]].
    unfold read_sign. rewrite Hc0. cbn [bind]. rewrite Hneg.
    rewrite (read_int_gen m t e (d + length sp) sg ds).
    - assert (Hdv : (0 <= dval ds <= imax t)%Z).
      { split; [apply dval_nonneg; exact Hd|]. pose proof (dval_nonneg ds Hd). destruct neg; lia. }
      rewrite read_val_fit by (auto; lia). cbn [bind].
      replace (dval ds * (if neg then -1 else 1))%Z with (if neg then - dval ds else dval ds)%Z by (destruct neg; lia).
      rewrite arith_in by (auto; lia). cbn [bind]. eexists; split; [reflexivity|lia].
    - exact Hsd.
    - destruct Hsgn as [(-> & _)|[(-> & _)|(-> & _)]]; repeat constructor.
    - exact Hd.
    - lia.
    - right. split; [|exact Hne]. exists c; split; [|exact Hcd]. exact Hc. }
  destruct Hpost as [sp ds tl Hsp Hds Htl|sp ds tl Hsp Hds Htl|sp ds tl Hsp Hds Htl].
  - apply (Hcore sp [] ds tl false); auto.
  - apply (Hcore sp [ch_plus] ds tl false); auto.
  - apply (Hcore sp [ch_minus] ds tl true); auto.
Qed.

Lemma wend_signed t : is_ity t -> wend (wr_signed t).
Proof.
  intros Ht m e c Hl Hc. cbn [w_read w_count wr_signed].
  assert (E : move_to_next_signed_int m e e = Ok e).
  { unfold move_to_next_signed_int. rewrite Hl. cbn [bind].
    assert (Hs : ((c =? ch_plus) || (c =? ch_minus))%Z = false).
    { destruct Hc as [->|Hc]; [reflexivity|]. unfold is_digit, ch_0, ch_9, ch_plus, ch_minus in *. lia. }
    rewrite Hs. unfold move_to_non_int. rewrite scan_end by lia. cbn [bind].
    unfold skip_comments_here. rewrite Hl. cbn [bind]. rewrite (ce_not_cmt c Hc). cbn [bind].
    cbn [seek_]. rewrite Nat.ltb_irrefl. reflexivity. }
  rewrite E. cbn [bind]. unfold read_sign. rewrite Hl. cbn [bind].
  rewrite read_int_end by lia. cbn [bind].
  rewrite Z.mul_0_l. pose proof (ity_facts t Ht). rewrite arith_in by (auto; lia). cbn [bind].
  split; [eauto|reflexivity].
Qed.

(** ** Floating point *)

(** The result of [read_fp] on a literal, in terms of the operations. *)
Definition fp_fold (F : fpops) (ds : list byte) : fpT F :=
  fold_left (fun a c => fp_dig F a (c - ch_0)%Z) ds (fp_zero F).
Definition fp_signed (F : fpops) (s : fsign) (v : fpT F) : fpT F := if neg_of s then fp_opp F v else v.
Definition fp_value (F : fpops) (f : fplit) : fpT F :=
  let r1 := fp_fold F (fl_int f) in
  let r2 := match fl_frac f with None => r1 | Some ds => fp_frac F r1 (fp_fold F ds) (length ds) end in
  let r3 := match fl_exp f with None => r2 | Some (_, s, ds) => fp_exp F r2 (fp_signed F s (fp_fold F ds)) end in
  fp_signed F (fl_sign f) r3.

Lemma fp_digits_run F m n d ds acc ct :
  has m d ds -> all_digits ds -> length ds <= n ->
  (exists c, load m (d + length ds) = Ok c /\ is_digit c = false) ->
  fp_digits_ F m n d acc ct = Ok (fold_left (fun a c => fp_dig F a (c - ch_0)%Z) ds acc, ct + length ds, d + length ds).
Proof.
  intros Hh Hd. revert n d acc ct Hh; induction Hd as [|c ds Hc Hd IH]; intros n d acc ct Hh Hn Hs.
  - destruct Hs as (c & Hl & Hcd). cbn [length fold_left] in *. rewrite Nat.add_0_r in Hl |- *.
    destruct n as [|n]; cbn [fp_digits_]; [rewrite Nat.add_0_r; reflexivity|].
    rewrite Hl. cbn [bind]. rewrite Hcd, Nat.add_0_r. reflexivity.
  - destruct n as [|n]; [cbn in Hn; lia|]. cbn [fp_digits_ length] in *. rewrite (load_has _ _ _ _ Hh). cbn [bind]. rewrite Hc. destruct Hh as [_ Hh].
    rewrite IH; [|exact Hh|lia|]. { cbn [fold_left]. f_equal. f_equal; [f_equal|]; lia. }
    rewrite <- Nat.add_succ_comm in Hs. exact Hs.
Qed.

Definition sign_char (s : fsign) : bool := match s with SNone => false | _ => true end.

Lemma digit_fp c : is_digit c = true -> is_fp c = true.
Proof. intros H; unfold is_fp; rewrite H; reflexivity. Qed.

Lemma nonfp_digit c : is_fp c = false -> is_digit c = false.
Proof. destruct (is_digit c) eqn:E; [rewrite digit_fp in * by exact E; congruence|reflexivity]. Qed.

(** ** One level of [read_fp_]: no exponent, followed by a byte outside the
    floating-point alphabet. *)
Lemma read_fp_int F m e fuel d s ds c :
  has m d (sign_text s ++ ds) -> digits ds ->
  load m (d + length (sign_text s ++ ds)) = Ok c -> is_fp c = false ->
  d + length (sign_text s ++ ds) <= e ->
  read_fp_ F m e (S fuel) d = Ok (fp_signed F s (fp_fold F ds), d + length (sign_text s ++ ds)).
Proof.
  intros Hh [Hne Hd] Hl Hc He. cbn [read_fp_].
  pose proof (nonfp_digit c Hc) as Hcd.
  assert (Hcx : (c =? ch_dot)%Z = false /\ ((c =? ch_e) || (c =? ch_E))%Z = false).
  { unfold is_fp in Hc. destruct (is_digit c), (c =? ch_e)%Z, (c =? ch_E)%Z, (c =? ch_minus)%Z, (c =? ch_plus)%Z, (c =? ch_dot)%Z; cbn in *; try discriminate; auto. }
  destruct Hcx as [Hdot Hexp].
  rewrite app_length in *. apply has_app in Hh as [Hh1 Hh2].
  destruct ds as [|c0 ds]; [congruence|]. assert (Hd0 := forall_hd _ _ _ Hd). cbn beta in Hd0.
  assert (Hstart : exists c1, load m d = Ok c1 /\ is_fp c1 = true /\ (c1 =? ch_minus)%Z = neg_of s /\
     (if ((c1 =? ch_minus)%Z || (c1 =? ch_plus)%Z) then S d else d) = d + length (sign_text s)).
  { destruct s; cbn [sign_text length] in *.
    - rewrite Nat.add_0_r in Hh2. exists c0. split; [eapply load_has; exact Hh2|]. split; [apply digit_fp; exact Hd0|].
      assert (E : (c0 =? ch_minus)%Z = false /\ (c0 =? ch_plus)%Z = false) by (unfold is_digit, ch_0, ch_9, ch_minus, ch_plus in *; lia).
      destruct E as [-> ->]. cbn. split; [reflexivity|lia].
    - exists ch_plus. split; [eapply load_has; exact Hh1|]. split; [reflexivity|]. split; [reflexivity|]. cbn; lia.
    - exists ch_minus. split; [eapply load_has; exact Hh1|]. split; [reflexivity|]. split; [reflexivity|]. cbn; lia. }
  destruct Hstart as (c1 & Hl1 & Hf1 & Hneg & Hadv).
  rewrite (scan_stop m _ e d c1 Hl1) by (rewrite Hf1; reflexivity). cbn [bind]. rewrite Hl1. cbn [bind].
  rewrite Hadv.
  rewrite (fp_digits_run F m _ _ (c0 :: ds) _ _ Hh2 Hd).
  2: { lia. }
  2: { exists c; split; [rewrite <- Hl; f_equal; lia|exact Hcd]. }
  cbn [bind].
  replace (d + length (sign_text s) + length (c0 :: ds)) with (d + (length (sign_text s) + length (c0 :: ds))) by lia.
  rewrite Hl. cbn [bind]. rewrite Hdot. cbn [bind]. rewrite Hl. cbn [bind]. rewrite Hexp. cbn [bind].
  rewrite Hneg. reflexivity.
Qed.

Lemma read_fp_lit F m e fuel d f c :
  has m d (fplit_text f) -> wf_fplit f ->
  load m (d + length (fplit_text f)) = Ok c -> is_fp c = false ->
  d + length (fplit_text f) <= e ->
  read_fp_ F m e (S (S fuel)) d = Ok (fp_value F f, d + length (fplit_text f)).
Proof.
  intros Hh (Hi & Hfr & Hsome & Hex) Hl Hc He. remember (S fuel) as fuel1. cbn [read_fp_].
  pose proof (nonfp_digit c Hc) as Hcd.
  assert (Hcx : (c =? ch_dot)%Z = false /\ ((c =? ch_e) || (c =? ch_E))%Z = false).
  { unfold is_fp in Hc. destruct (is_digit c), (c =? ch_e)%Z, (c =? ch_E)%Z, (c =? ch_minus)%Z, (c =? ch_plus)%Z, (c =? ch_dot)%Z; cbn in *; try discriminate; auto. }
  destruct Hcx as [Hdot Hexp].
  destruct f as [s ds fr ex]; cbn [fl_sign fl_int fl_frac fl_exp] in *. unfold fplit_text in *; cbn [fl_sign fl_int fl_frac fl_exp] in *.
  assert (Hsd : ds <> [] \/ exists fd, fr = Some fd) by (destruct Hsome as [|(fd & -> & _)]; eauto).
  rewrite !app_length in *.
  apply has_app in Hh as [Hh1 Hh2]. apply has_app in Hh2 as [Hh2 Hh3]. apply has_app in Hh3 as [Hh3 Hh4].
  set (p1 := d + length (sign_text s)) in *. set (p2 := p1 + length ds) in *. set (p3 := p2 + length (frac_text fr)) in *.
  assert (Hl' : load m (p3 + length (exp_text ex)) = Ok c) by (rewrite <- Hl; f_equal; unfold p3, p2, p1; lia).
  (* the byte after the mantissa *)
  assert (Hm3 : exists c3, load m p3 = Ok c3 /\ is_digit c3 = false /\ (c3 =? ch_dot)%Z = false /\
            (((c3 =? ch_e) || (c3 =? ch_E))%Z = match ex with None => false | Some _ => true end)).
  { destruct ex as [[[ec es] eds]|]; cbn [exp_text] in *.
    - exists ec. split; [eapply load_has; exact Hh4|]. destruct Hex as [[->| ->] _]; auto.
    - rewrite Nat.add_0_r in Hl'. exists c; auto. }
  destruct Hm3 as (c3 & Hl3 & Hd3 & Hdot3 & He3).
  (* the byte after the integer part *)
  assert (Hm2 : exists c2, load m p2 = Ok c2 /\ is_digit c2 = false /\
            (c2 =? ch_dot)%Z = match fr with None => false | Some _ => true end).
  { destruct fr as [fd|]; cbn [frac_text] in *.
    - exists ch_dot. split; [eapply load_has; exact Hh3|]. auto.
    - exists c3. unfold p3 in Hl3; cbn in Hl3; rewrite Nat.add_0_r in Hl3. auto. }
  destruct Hm2 as (c2 & Hl2 & Hd2 & Hdot2).
  assert (Hstart : exists c1, load m d = Ok c1 /\ is_fp c1 = true /\ (c1 =? ch_minus)%Z = neg_of s /\
     (if ((c1 =? ch_minus)%Z || (c1 =? ch_plus)%Z) then S d else d) = p1).
  { destruct s; cbn [sign_text length] in *.
    - assert (p1 = d) by (unfold p1; lia). destruct ds as [|c0 ds].
      + destruct fr as [fd|]; [|destruct Hsd as [|(? & ?)]; congruence].
        cbn [frac_text] in Hh3. exists ch_dot. assert (p2 = d) by (unfold p2; cbn; lia).
        rewrite H0 in Hh3. split; [eapply load_has; exact Hh3|]. split; [reflexivity|]. split; [reflexivity|]. cbn. lia.
      + rewrite H in Hh2. exists c0. assert (Hd0 := forall_hd _ _ _ Hi). cbn beta in Hd0.
        split; [eapply load_has; exact Hh2|]. split; [apply digit_fp; exact Hd0|].
        assert (E : (c0 =? ch_minus)%Z = false /\ (c0 =? ch_plus)%Z = false) by (unfold is_digit, ch_0, ch_9, ch_minus, ch_plus in *; lia).
        destruct E as [-> ->]. cbn. split; [reflexivity|lia].
    - exists ch_plus. split; [eapply load_has; exact Hh1|]. split; [reflexivity|]. split; [reflexivity|]. cbn. unfold p1; lia.
    - exists ch_minus. split; [eapply load_has; exact Hh1|]. split; [reflexivity|]. split; [reflexivity|]. cbn. unfold p1; lia. }
  destruct Hstart as (c1 & Hl1 & Hf1 & Hneg & Hadv).
  rewrite (scan_stop m _ e d c1 Hl1) by (rewrite Hf1; reflexivity). cbn [bind]. rewrite Hl1. cbn [bind].
  rewrite Hadv. rewrite (fp_digits_run F m _ _ ds _ _ Hh2 Hi).
  2: { unfold p1; lia. }
  2: { exists c2; auto. }
  cbn [bind]. fold p2. rewrite Hl2. cbn [bind]. rewrite Hdot2.
  change (fold_left (fun a c0 => fp_dig F a (c0 - ch_0)%Z) ds (fp_zero F)) with (fp_fold F ds).
  set (r1 := fp_fold F ds).
  assert (Efr : (if match fr with Some _ => true | None => false end
                 then '(fr0, ct, d') <- fp_digits_ F m (e - S p2) (S p2) (fp_zero F) 0;; Ok (fp_frac F r1 fr0 ct, d')
                 else Ok (r1, p2)) =
                Ok (match fr with None => r1 | Some fd => fp_frac F r1 (fp_fold F fd) (length fd) end, p3)).
  { destruct fr as [fd|]; cbn [frac_text length] in *.
    - destruct Hh3 as [_ Hh3]. rewrite (fp_digits_run F m _ _ fd); [|exact Hh3|exact Hfr|unfold p2, p1 in *; lia|].
      + cbn [bind plus]. f_equal. f_equal. unfold p3; lia.
      + exists c3. split; [rewrite <- Hl3; f_equal; unfold p3; lia|exact Hd3].
    - f_equal. f_equal. unfold p3; lia. }
  rewrite Efr. cbn [bind]. rewrite Hl3. cbn [bind]. rewrite He3.
  set (r2 := match fr with None => r1 | Some fd => fp_frac F r1 (fp_fold F fd) (length fd) end).
  assert (Eex : (if match ex with Some _ => true | None => false end
                 then '(ex0, d') <- read_fp_ F m e fuel1 (S p3);; Ok (fp_exp F r2 ex0, d')
                 else Ok (r2, p3)) =
                Ok (match ex with None => r2 | Some (_, es, eds) => fp_exp F r2 (fp_signed F es (fp_fold F eds)) end,
                    p3 + length (exp_text ex))).
  { destruct ex as [[[ec es] eds]|]; cbn [exp_text length] in *.
    - destruct Hh4 as [_ Hh4]. subst fuel1. rewrite (read_fp_int F m e fuel (S p3) es eds c).
      + cbn [bind]. f_equal. f_equal. lia.
      + exact Hh4.
      + apply Hex.
      + rewrite <- Hl'. f_equal. lia.
      + exact Hc.
      + unfold p3, p2, p1; lia.
    - f_equal. f_equal. lia. }
  rewrite Eex. cbn [bind]. rewrite Hneg. f_equal. f_equal. unfold p3, p2, p1; lia.
Qed.

Lemma fplit_fp f : wf_fplit f -> Forall (fun c => is_fp c = true) (fplit_text f).
Proof.
  assert (Hs : forall s, Forall (fun c => is_fp c = true) (sign_text s)) by (intros []; repeat constructor).
  assert (Hd : forall ds, all_digits ds -> Forall (fun c => is_fp c = true) ds).
  { intros ds H. eapply Forall_impl; [|exact H]. intros c; apply digit_fp. }
  intros (Hi & Hfr & _ & Hex). unfold fplit_text. repeat (apply Forall_app; split); auto.
  - destruct (fl_frac f); [|constructor]. constructor; [reflexivity|auto].
  - destruct (fl_exp f) as [[[c s] ds]|]; [|constructor]. destruct Hex as [Hc [_ Hds]].
    constructor; [destruct Hc as [->| ->]; reflexivity|]. apply Forall_app; split; auto.
Qed.

Lemma fplit_text_ne f : wf_fplit f -> fplit_text f <> [].
Proof.
  intros (_ & _ & H & _) E. unfold fplit_text in E. apply app_eq_nil in E as [_ E]. apply app_eq_nil in E as [E1 E2].
  apply app_eq_nil in E2 as [E2 _]. destruct H as [H|(ds & H & _)]; [congruence|]. rewrite H in E2. discriminate.
Qed.

Lemma read_fp_at F m e d f c :
  has m d (fplit_text f) -> wf_fplit f ->
  load m (d + length (fplit_text f)) = Ok c -> is_fp c = false ->
  d + length (fplit_text f) <= e ->
  read_fp F m e d = Ok (fp_value F f, d + length (fplit_text f)).
Proof.
  intros Hh Hw Hl Hc He. unfold read_fp. replace (e - d) with (e - d) by lia.
  apply read_fp_lit with (c := c); auto.
Qed.

Lemma wok_float F post f : post_float post f -> wok (wr_float F) post (fp_value F f).
Proof.
  intros [sp lit tl Hsp Hwf Htl Hhd] m e d Hh Hl He. cbn [w_read w_count wr_float].
  rewrite !app_length in *. apply has_app in Hh as [Hh1 Hh2]. apply has_app in Hh2 as [Hh2 Hh3].
  destruct (tail_char m (d + length sp + length (fplit_text lit)) tl) as (c & Hc & Hcd); auto.
  { rewrite <- Hl. f_equal; lia. }
  assert (Hcf : is_fp c = false) by (destruct tl; subst; [reflexivity|exact Hhd]).
  pose proof (fplit_text_ne lit Hwf) as Hne. pose proof (fplit_fp lit Hwf) as Hfp.
  assert (Emv : move_to_fp m e d = Ok (d + length sp)).
  { unfold move_to_fp. apply scan_to; [exact Hh1| |lia|].
    - eapply Forall_impl; [|exact Hsp]. cbn; intros a [-> _]; reflexivity.
    - right. destruct (fplit_text lit) as [|a t]; [congruence|]. exists a. split; [eapply load_has; exact Hh2|].
      apply forall_hd in Hfp. rewrite Hfp; reflexivity. }
  rewrite Emv. cbn [bind].
  assert (Enon : move_to_non_fp m e (d + length sp) = Ok (d + length sp + length (fplit_text lit))).
  { unfold move_to_non_fp. apply scan_to; [exact Hh2|exact Hfp|lia|]. right. exists c; auto. }
  split.
  - rewrite (read_fp_at F m e _ lit c) by (auto; lia). cbn [bind].
    unfold move_to_non_fp. rewrite (scan_stop m _ e _ c Hc Hcf). cbn [bind]. eexists; split; [reflexivity|lia].
  - rewrite Enon. eexists; split; [reflexivity|lia].
Qed.

Lemma wend_float F : wend (wr_float F).
Proof.
  intros m e c Hl Hc. cbn [w_read w_count wr_float].
  unfold move_to_fp, move_to_non_fp. rewrite scan_end by lia. cbn [bind].
  assert (E : exists v, read_fp F m e e = Ok (v, e)).
  { unfold read_fp. cbn [read_fp_]. rewrite scan_end by lia. cbn [bind]. rewrite Hl. cbn [bind].
    assert (Hs : (c =? ch_minus)%Z = false /\ (c =? ch_plus)%Z = false /\ (c =? ch_dot)%Z = false /\ ((c =? ch_e) || (c =? ch_E))%Z = false).
    { destruct Hc as [->|Hc]; [auto|]. unfold is_digit, ch_0, ch_9, ch_plus, ch_minus, ch_dot, ch_e, ch_E in *. lia. }
    destruct Hs as (-> & -> & Hdot & Hexp). cbn [orb]. rewrite Nat.sub_diag. cbn [fp_digits_ bind].
    rewrite Hl. cbn [bind]. rewrite Hdot. cbn [bind]. rewrite Hl. cbn [bind]. rewrite Hexp. cbn [bind]. eauto. }
  destruct E as (v & E). rewrite E. cbn [bind]. rewrite scan_end by lia. cbn [bind]. split; [eauto|reflexivity].
Qed.
