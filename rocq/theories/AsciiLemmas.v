(** * AsciiLemmas: what the formatting functions store *)

From Verif Require Import Base Sched SchedLemmas Spec SpecDec Reader ReaderLemmas Coo Ascii.

(** ** Stores *)
Definition paddr (i : put) : Z := match i with Put a _ => a end.

Lemma puts_at_app l1 l2 : forall a, puts_at a (l1 ++ l2) = puts_at a l1 ++ puts_at (a + Z.of_nat (length l1)) l2.
Proof.
  induction l1 as [|b l1 IH]; intros a; cbn [app puts_at length].
  - f_equal. lia.
  - rewrite IH. do 3 f_equal. lia.
Qed.

Lemma puts_at_addr l : forall a i, In i (puts_at a l) -> (a <= paddr i < a + Z.of_nat (length l))%Z.
Proof.
  induction l as [|b l IH]; intros a i H; [destruct H|]. cbn [puts_at] in H.
  destruct H as [<-|H]; cbn [paddr length]; [lia|]. specialize (IH _ _ H). lia.
Qed.

Lemma puts_at_length l : forall a, length (puts_at a l) = length l.
Proof. induction l as [|b l IH]; intros a; cbn; auto. Qed.

Lemma pcomm i j : paddr i <> paddr j -> comm pexec i j.
Proof.
  destruct i as [a b], j as [a' b']; cbn [paddr]; intros H f. unfold pexec.
  destruct ((0 <=? a) && (a <? Z.of_nat (length f)))%Z eqn:E1;
  destruct ((0 <=? a') && (a' <? Z.of_nat (length f)))%Z eqn:E2; cbn [bind];
    rewrite ?upd_length, ?E1, ?E2; try reflexivity.
  rewrite upd_comm; [reflexivity|]. apply andb_prop in E1, E2. lia.
Qed.

(** [ps] stores [txt] at [a], and nothing elsewhere. *)
Definition exact_ (a : nat) (txt : list byte) (ps : list put) : Prop :=
  (forall i, In i ps -> (Z.of_nat a <= paddr i < Z.of_nat (a + length txt))%Z) /\
  (forall pre mid post, length pre = a -> length mid = length txt ->
     exec_all pexec ps (pre ++ mid ++ post) = Ok (pre ++ txt ++ post)).

(** [ps] stores [txt] at [a], and at most the byte after it. *)
Definition emits (a : nat) (txt : list byte) (ps : list put) : Prop :=
  (forall i, In i ps -> (Z.of_nat a <= paddr i <= Z.of_nat (a + length txt))%Z) /\
  (forall pre mid c post, length pre = a -> length mid = length txt ->
     exists c', exec_all pexec ps (pre ++ mid ++ c :: post) = Ok (pre ++ txt ++ c' :: post)).

Lemma exact_nil a : exact_ a [] [].
Proof.
  split; [intros i []|]. intros pre mid post _ Hm. destruct mid; [reflexivity|discriminate].
Qed.

Lemma exact_app a t1 p1 t2 p2 :
  exact_ a t1 p1 -> exact_ (a + length t1) t2 p2 -> exact_ a (t1 ++ t2) (p1 ++ p2).
Proof.
  intros [R1 E1] [R2 E2]. split.
  - intros i Hi. rewrite app_length. apply in_app_or in Hi as [Hi|Hi]; [apply R1 in Hi|apply R2 in Hi]; lia.
  - intros pre mid post Hp Hm. rewrite app_length in Hm.
    rewrite exec_all_app. rewrite <- (firstn_skipn (length t1) mid).
    rewrite <- app_assoc, E1 by (rewrite ?firstn_length; lia). cbn [bind].
    rewrite app_assoc, E2; [|rewrite app_length; lia|rewrite skipn_length; lia].
    now rewrite <- !app_assoc.
Qed.

Lemma exact_emits a t p : exact_ a t p -> emits a t p.
Proof.
  intros [R E]. split; [intros i Hi; apply R in Hi; lia|].
  intros pre mid c post Hp Hm. exists c. apply E; assumption.
Qed.

Lemma pexec_mid pre c post b : pexec (Put (Z.of_nat (length pre)) b) (pre ++ c :: post) = Ok (pre ++ b :: post).
Proof.
  unfold pexec. rewrite app_length. cbn [length].
  assert (E : ((0 <=? Z.of_nat (length pre)) && (Z.of_nat (length pre) <? Z.of_nat (length pre + S (length post))))%Z = true) by (apply andb_true_intro; split; [apply Z.leb_le|apply Z.ltb_lt]; lia).
  rewrite E, Nat2Z.id, upd_mid. reflexivity.
Qed.

Lemma emits_sep a t p s :
  emits a t p -> exact_ a (t ++ [s]) (p ++ [Put (Z.of_nat (a + length t)) s]).
Proof.
  intros [R E]. split.
  - intros i Hi. rewrite app_length. cbn [length]. apply in_app_or in Hi as [Hi|[<-|[]]]; [apply R in Hi; lia|cbn [paddr]; lia].
  - intros pre mid post Hp Hm. rewrite app_length in Hm; cbn [length] in Hm.
    destruct (@exists_last _ mid) as (mid' & c & ->); [destruct mid; [cbn in Hm; lia|discriminate]|].
    rewrite app_length in Hm; cbn [length] in Hm. rewrite exec_all_app, <- !app_assoc. cbn [app].
    destruct (E pre mid' c post Hp ltac:(lia)) as [c' ->]. cbn [bind exec_all].
    rewrite app_assoc. replace (a + length t) with (length (pre ++ t)) by (rewrite app_length; lia).
    rewrite pexec_mid. cbn [bind]. now rewrite <- app_assoc.
Qed.

Lemma exec_puts_at txt : forall pre mid post, length mid = length txt ->
  exec_all pexec (puts_at (Z.of_nat (length pre)) txt) (pre ++ mid ++ post) = Ok (pre ++ txt ++ post).
Proof.
  induction txt as [|b txt IH]; intros pre mid post Hm; destruct mid as [|c mid]; try discriminate; [reflexivity|].
  cbn [puts_at exec_all app]. rewrite pexec_mid. cbn [bind].
  specialize (IH (pre ++ [b]) mid post). rewrite app_length in IH; cbn [length] in IH.
  replace (Z.of_nat (length pre) + 1)%Z with (Z.of_nat (length pre + 1)) by lia.
  rewrite <- !app_assoc in IH. cbn [app] in IH. apply IH. cbn in Hm; lia.
Qed.

Lemma exec_rev_puts txt : forall pre mid post, length mid = length txt ->
  exec_all pexec (rev (puts_at (Z.of_nat (length pre)) txt)) (pre ++ mid ++ post) = Ok (pre ++ txt ++ post).
Proof.
  induction txt as [|b txt IH]; intros pre mid post Hm; destruct mid as [|c mid]; try discriminate; [reflexivity|].
  cbn [puts_at rev app]. rewrite exec_all_app.
  specialize (IH (pre ++ [c]) mid post). rewrite app_length in IH; cbn [length] in IH.
  replace (Z.of_nat (length pre) + 1)%Z with (Z.of_nat (length pre + 1)) by lia.
  rewrite <- !app_assoc in IH. cbn [app] in IH. rewrite IH by (cbn in Hm; lia). cbn [bind exec_all].
  rewrite pexec_mid. reflexivity.
Qed.

Lemma exact_puts_at a txt : exact_ a txt (puts_at (Z.of_nat a) txt).
Proof.
  split.
  - intros i Hi. apply puts_at_addr in Hi. lia.
  - intros pre mid post <- Hm. apply exec_puts_at; exact Hm.
Qed.

Lemma exact_rev_puts a txt : exact_ a txt (rev (puts_at (Z.of_nat a) txt)).
Proof.
  split.
  - intros i Hi. apply in_rev in Hi. apply puts_at_addr in Hi. lia.
  - intros pre mid post <- Hm. apply exec_rev_puts; exact Hm.
Qed.

(** ** Digit loops *)
Lemma dfuel_bound z : (0 <= z)%Z -> (z < 2 ^ Z.of_nat (dfuel z))%Z.
Proof. intros Hz. unfold dfuel. rewrite Z.abs_eq by lia. apply log2_bound; exact Hz. Qed.

Lemma fuel_step f z : (10 <= z)%Z -> (z < 2 ^ Z.of_nat (S f))%Z -> (z / 10 < 2 ^ Z.of_nat f)%Z.
Proof.
  intros Hz H. rewrite Nat2Z.inj_succ, Z.pow_succ_r in H by lia. apply Z.div_lt_upper_bound; lia.
Qed.

Lemma wsize_pos z : (0 <= z)%Z -> forall f r, (z < 2 ^ Z.of_nat f)%Z -> 0 < f ->
  wsize_loop f z r = Ok (r + length (dec_abs z)).
Proof.
  revert z. apply (dec_abs_ind (fun z => forall f r, (z < 2 ^ Z.of_nat f)%Z -> 0 < f -> wsize_loop f z r = Ok (r + length (dec_abs z)))).
  - intros z Hz f r Hf Hp. destruct f as [|f]; [lia|]. cbn [wsize_loop].
    rewrite Z.quot_div_nonneg, Z.div_small by lia. cbn [Z.eqb].
    rewrite dec_abs_eq by lia. destruct (Z.ltb_spec z 10); [|lia]. cbn [length]. f_equal; lia.
  - intros z Hz IH f r Hf Hp. destruct f as [|f]; [lia|]. cbn [wsize_loop].
    rewrite Z.quot_div_nonneg by lia. assert (0 < z / 10)%Z by (apply Z.div_str_pos; lia).
    destruct (Z.eqb_spec (z / 10) 0); [lia|]. pose proof (fuel_step _ _ Hz Hf) as Hf'.
    rewrite IH; [|exact Hf'|destruct f; [cbn in Hf'; lia|lia]].
    rewrite (dec_abs_eq z) by lia. destruct (Z.ltb_spec z 10); [lia|]. rewrite app_length; cbn [length]. f_equal; lia.
Qed.

Lemma wsize_neg f : forall z r, wsize_loop f (- z) r = wsize_loop f z r.
Proof.
  induction f as [|f IH]; intros z r; cbn [wsize_loop]; [reflexivity|].
  rewrite Z.quot_opp_l by lia. rewrite IH.
  destruct (Z.eqb_spec (Z.quot z 10) 0), (Z.eqb_spec (- Z.quot z 10) 0); try reflexivity; lia.
Qed.

Lemma write_size_dec t z : (isigned t = false -> (0 <= z)%Z) -> write_size t z = Ok (length (dec z)).
Proof.
  intros Ht. unfold write_size, neg_size, dec. destruct (Z.ltb_spec z 0) as [H|H].
  - destruct (isigned t); [|specialize (Ht eq_refl); lia]. cbn [andb length].
    replace z with (- (- z))%Z at 2 by lia. rewrite wsize_neg.
    unfold dfuel. rewrite Z.abs_neq by lia. rewrite wsize_pos; [|lia|apply log2_bound; lia|lia]. f_equal.
  - rewrite andb_false_r. rewrite wsize_pos; [reflexivity|exact H|apply dfuel_bound; exact H|unfold dfuel; lia].
Qed.

Lemma wdigits_pos z : (0 <= z)%Z -> forall f p, (z < 2 ^ Z.of_nat f)%Z -> 0 < f ->
  wdigits f p z = Ok (rev (puts_at (p - Z.of_nat (length (dec_abs z)) + 1) (dec_abs z))).
Proof.
  revert z. apply (dec_abs_ind (fun z => forall f p, (z < 2 ^ Z.of_nat f)%Z -> 0 < f ->
    wdigits f p z = Ok (rev (puts_at (p - Z.of_nat (length (dec_abs z)) + 1) (dec_abs z))))).
  - intros z Hz f p Hf Hp. destruct f as [|f]; [lia|]. cbn [wdigits].
    rewrite Z.quot_div_nonneg, Z.div_small by lia. cbn [Z.eqb].
    rewrite Z.rem_mod_nonneg, Z.mod_small by lia.
    rewrite dec_abs_eq by lia. destruct (Z.ltb_spec z 10); [|lia]. cbn [length puts_at rev app]. do 3 f_equal; lia.
  - intros z Hz IH f p Hf Hp. destruct f as [|f]; [lia|]. cbn [wdigits].
    rewrite Z.quot_div_nonneg by lia. assert (0 < z / 10)%Z by (apply Z.div_str_pos; lia).
    destruct (Z.eqb_spec (z / 10) 0); [lia|]. pose proof (fuel_step _ _ Hz Hf) as Hf'.
    rewrite IH; [|exact Hf'|destruct f; [cbn in Hf'; lia|lia]]. cbn [bind].
    rewrite (dec_abs_eq z) by lia. destruct (Z.ltb_spec z 10); [lia|].
    rewrite app_length; cbn [length]. rewrite puts_at_app, rev_app_distr. cbn [puts_at rev app].
    rewrite Z.rem_mod_nonneg by lia. do 2 f_equal; [f_equal; lia|]. do 2 f_equal. lia.
Qed.

Lemma ity_imin t : is_ity t -> imin t = (if isigned t then - imax t - 1 else 0)%Z.
Proof. unfold is_ity; cbn [In]; intros H; repeat destruct H as [<-|H]; try reflexivity; contradiction. Qed.


(** ** [write_ascii] of an integer *)
Lemma write_ascii_dec t a z : is_ity t -> inrange t z = true -> (isigned t = true -> z <> imin t) ->
  exists ps, write_ascii t (Z.of_nat a) z = Ok (ps, Z.of_nat (a + length (dec z))) /\ exact_ a (dec z) ps.
Proof.
  intros Ht Hr Hm. unfold inrange in Hr. apply andb_prop in Hr as [H1 H2].
  apply Z.leb_le in H1, H2. pose proof (ity_imin t Ht) as Ei.
  assert (HW : forall z, (0 <= z <= imax t)%Z -> write_size t z = Ok (length (dec_abs z))).
  { intros y Hy. rewrite write_size_dec by lia. unfold dec. destruct (Z.ltb_spec y 0); [lia|reflexivity]. }
  unfold write_ascii, get_positive, dec. destruct (Z.ltb_spec z 0) as [H|H].
  - destruct (isigned t) eqn:Es; [|lia]. specialize (Hm eq_refl). cbn [andb].
    rewrite arith_in by (auto; lia). cbn [bind]. rewrite HW by lia. cbn [bind].
    rewrite wdigits_pos; [|lia|apply dfuel_bound; lia|unfold dfuel; lia]. cbn [bind]. eexists. split.
    + cbn [length]. f_equal. f_equal. lia.
    + apply (exact_app a [ch_minus] [Put (Z.of_nat a) ch_minus]); [apply (exact_puts_at a [ch_minus])|].
      cbn [length]. set (n := length (dec_abs (- z))).
      replace (Z.of_nat a + 1 + Z.of_nat n - 1 - Z.of_nat n + 1)%Z with (Z.of_nat (a + 1)) by lia.
      apply exact_rev_puts.
  - rewrite andb_false_r. cbn [bind]. rewrite HW by lia. cbn [bind].
    rewrite wdigits_pos; [|lia|apply dfuel_bound; lia|unfold dfuel; lia]. cbn [bind]. eexists. split.
    + f_equal. f_equal. lia.
    + cbn [app]. set (n := length (dec_abs z)).
      replace (Z.of_nat a + Z.of_nat n - 1 - Z.of_nat n + 1)%Z with (Z.of_nat a) by lia.
      apply exact_rev_puts.
Qed.

(** ** Formatters *)

(** [fm] writes value [v] as [txt]. *)
Definition formats {V} (fm : fmt V) (v : V) (txt : list byte) : Prop :=
  f_size fm v = Ok (length txt) /\
  forall a, exists ps, f_put fm (Z.of_nat a) v = Ok (ps, Z.of_nat (a + length txt)) /\ emits a txt ps.

Lemma formats_int t z : is_ity t -> inrange t z = true -> (isigned t = true -> z <> imin t) ->
  formats (fmt_int t) z (dec z).
Proof.
  intros Ht Hr Hm. split.
  - apply write_size_dec. intros Es. unfold inrange in Hr. apply andb_prop in Hr as [H1 H2].
    pose proof (ity_imin t Ht) as Ei. rewrite Es in Ei. lia.
  - intros a. destruct (write_ascii_dec t a z Ht Hr Hm) as (ps & E & Hx). exists ps.
    split; [exact E|apply exact_emits; exact Hx].
Qed.

Lemma zfill_align_spec n : forall a, fst (zfill_align n a) = repeat ch_0 (n - snd (zfill_align n a)) /\ snd (zfill_align n a) <= n.
Proof.
  induction n as [|n IH]; intros a; cbn [zfill_align]; [split; [reflexivity|cbn; lia]|].
  destruct (a mod 4 =? 0)%Z; cbn [fst snd]; [split; [rewrite Nat.sub_diag; reflexivity|lia]|].
  specialize (IH (a + 1)%Z). destruct (zfill_align n (a + 1)%Z) as [l r]. cbn [fst snd] in *. destruct IH as [-> Hr].
  split; [|lia]. replace (S n - r) with (S (n - r)) by lia. reflexivity.
Qed.

Lemma zfill_four_spec f : forall n, fst (zfill_four f n) = repeat ch_0 (n - snd (zfill_four f n)) /\ snd (zfill_four f n) <= n.
Proof.
  induction f as [|f IH]; intros n; cbn [zfill_four]; [split; [cbn; rewrite Nat.sub_diag; reflexivity|cbn; lia]|].
  destruct (Nat.leb_spec 4 n); cbn [fst snd]; [|split; [rewrite Nat.sub_diag; reflexivity|lia]].
  specialize (IH (n - 4)). destruct (zfill_four f (n - 4)) as [l r]. cbn [fst snd] in *. destruct IH as [-> Hr].
  split; [|lia]. replace (n - r) with (4 + (n - 4 - r)) by lia. reflexivity.
Qed.

(** Whatever the alignment, [zfill] appends [n] zeros. *)
Lemma zfill_spec n a : zfill n a = repeat ch_0 n.
Proof.
  unfold zfill. destruct (zfill_align_spec n a) as [E1 H1]. destruct (zfill_align n a) as [l1 r1]. cbn [fst snd] in *.
  destruct (zfill_four_spec n r1) as [E2 H2]. destruct (zfill_four n r1) as [l2 r2]. cbn [fst snd] in *. subst.
  rewrite <- !repeat_app. f_equal. lia.
Qed.

Lemma stb_body_nb nb nb' sn dp : stb_body nb sn dp = stb_body nb' sn dp.
Proof. unfold stb_body. rewrite !zfill_spec. reflexivity. Qed.

Lemma stb_chars_addr a nb a' nb' r : stb_chars a nb r = stb_chars a' nb' r.
Proof.
  destruct r; cbn [stb_chars]; [reflexivity|]. rewrite (stb_body_nb nb nb').
  destruct (stb_body nb' sn dp). rewrite !zfill_spec. reflexivity.
Qed.

Lemma formats_fp {V} (rts : V -> realstr) base lb nb v :
  length (stb_chars 0 0 (rts v)) < 1024 -> formats (fmt_fp rts base lb nb) v (stb_chars 0 0 (rts v)).
Proof.
  intros Hl. split; cbn [f_size f_put fmt_fp].
  - rewrite (stb_chars_addr lb nb 0 0). destruct (Nat.ltb_spec (length (stb_chars 0 0 (rts v))) 1024); [|lia].
    unfold clip. destruct (Nat.leb_spec 1024 (length (stb_chars 0 0 (rts v)))); [lia|reflexivity].
  - intros a. rewrite (stb_chars_addr _ nb 0 0). unfold clip.
    destruct (Nat.leb_spec 1024 (length (stb_chars 0 0 (rts v)))); [lia|].
    set (cs := stb_chars 0 0 (rts v)). eexists. split; [f_equal; f_equal; lia|].
    rewrite puts_at_app. split.
    + intros i Hi. apply in_app_or in Hi as [Hi|[<-|[]]]; [apply puts_at_addr in Hi; lia|cbn [paddr]; lia].
    + intros pre mid c post <- Hm. exists 0%Z. rewrite exec_all_app, exec_puts_at by exact Hm. cbn [bind puts_at exec_all].
      rewrite app_assoc, <- Nat2Z.inj_add, <- app_length, pexec_mid. cbn [bind]. now rewrite <- app_assoc.
Qed.
