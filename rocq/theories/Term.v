(** * Term: the text readers end on every byte string, with or without weights *)

From Verif Require Import Base Reader Sched Spec SpecFp ReaderLemmas Coo WeightLemmas ElSpec ElFinal Safe.

Ltac dif := match goal with |- context [if ?x then _ else _] => destruct x end.

Lemma safe_false {A} G (r : res A) Q : safe G r Q -> safe False r Q.
Proof. destruct r; cbn; auto. Qed.
Lemma safe_false_ne {A} (r : res A) Q : safe False r Q -> r <> Stuck.
Proof. destruct r; cbn; intros; try congruence; contradiction. Qed.

(** Where a thread's part of the file ends: at a data line or at the end. *)
Definition bnd (m : mem) (e : nat) : Prop := e = flen m \/ exists c, load m e = Ok c /\ is_digit c = true.

(** Reading a weight ends, wherever it starts, and so does skipping it. *)
Definition wterm {W} (w : wrd W) : Prop :=
  forall m e d, bnd m e -> e <= flen m -> d <= e ->
    safe False (w_read w m e d) (fun r => d <= snd r <= e) /\ safe False (w_count w m e d) (fun r => d <= r <= e).
Definition owterm {W} (wr : option (wrd W)) : Prop := match wr with None => True | Some w => wterm w end.

Lemma arith_false t z : safe False (arith t z) (fun _ => True).
Proof. unfold arith. repeat dif; cbn; tauto. Qed.

Lemma read_digits_false m t n : forall d acc, d + n <= flen m ->
    safe False (read_digits_ m t n d acc) (fun r => d <= snd r <= d + n /\ (forall c, 0 < n -> load m d = Ok c -> is_digit c = true -> d < snd r)).
Proof.
  induction n as [|n IH]; intros d acc Hd; cbn [read_digits_].
  - cbn. split; [lia|]. intros; lia.
  - eapply safe_bind; [eapply safe_false; apply (load_keep m); lia|]. cbn beta. intros c Hc. destruct (is_digit c) eqn:Ec.
    + eapply safe_bind; [apply arith_false|]. intros acc' _. eapply safe_imp; [apply IH; lia|]. cbn beta.
      intros [v d'] (H1 & _); cbn in *. split; [lia|]. intros; lia.
    + cbn. split; [lia|]. intros c' _ Hc' Hd'. congruence.
Qed.

Lemma read_int_safe_false m t e d : e <= flen m -> d <= e -> safe False (read_int m t e d) (fun r => d <= snd r <= e /\ (d < e -> d < snd r)).
Proof.
  intros He Hd. unfold read_int. eapply safe_bind; [eapply safe_false; apply (scan_safe m e He); exact Hd|]. cbn beta.
  intros d1 (H1 & H2 & _). eapply safe_imp; [apply read_digits_false; lia|]. cbn beta.
  intros [v d'] (H3 & H4); cbn in *. split; [lia|]. intros Hlt.
  destruct (Nat.eq_dec d1 d) as [->|]; [|lia].
  destruct (H2 Hlt) as (c & Hc & Hn). apply (H4 c); [lia|exact Hc|]. destruct (is_digit c); [reflexivity|discriminate].
Qed.

Lemma bnd_load m e p c : bnd m e -> p <= e -> load m p = Ok c -> is_digit c = false -> c <> 0%Z -> p < e.
Proof.
  intros Hb Hp Hl Hd Hc. destruct (Nat.eq_dec p e) as [->|]; [|lia]. exfalso. destruct Hb as [->|(c' & Hc' & Hd')]; [|congruence].
  unfold load, flen in Hl. rewrite (proj2 (nth_error_None (bytes m) (length (bytes m)))) in Hl by lia. destruct (_ <? _); [|discriminate]. congruence.
Qed.

Lemma wterm_unsigned t : wterm (wr_unsigned t).
Proof.
  intros m e d Hb He Hd. split; cbn [w_read w_count wr_unsigned].
  - eapply safe_bind; [eapply safe_false; apply (move_to_next_int_safe m e He); exact Hd|]. cbn beta. intros d1 [H1 _].
    eapply safe_imp; [apply read_int_safe_false; [exact He|lia]|]. cbn beta. intros r [H _]. lia.
  - eapply safe_imp; [eapply safe_false; apply (move_to_next_int_safe m e He); exact Hd|]. cbn beta. tauto.
Qed.

Lemma next_signed_false m e d : bnd m e -> e <= flen m -> d <= e -> safe False (move_to_next_signed_int m e d) (fun r => d <= r <= e).
Proof.
  intros Hb He Hd. unfold move_to_next_signed_int. eapply safe_bind; [eapply safe_false; apply (load_keep m); lia|]. cbn beta. intros c Hc.
  assert (H0 : d <= (if ((c =? ch_plus) || (c =? ch_minus))%Z then S d else d) <= e).
  { destruct (_ || _)%Z eqn:Es; [|lia]. enough (d < e) by lia.
    assert (Hcc : c = ch_plus \/ c = ch_minus) by (apply orb_prop in Es; destruct Es as [E|E]; apply Z.eqb_eq in E; auto).
    eapply bnd_load; [exact Hb|exact Hd|exact Hc|destruct Hcc as [->| ->]; reflexivity|destruct Hcc as [->| ->]; discriminate]. }
  destruct (_ || _)%Z; cbn zeta; unfold move_to_non_int;
  (eapply safe_bind; [eapply safe_false; apply (scan_safe m e He); lia|]; cbn beta; intros d1 (H1 & _);
   eapply safe_bind; [eapply safe_false; apply (skip_comments_here_safe m e He); lia|]; cbn beta; intros d2 (H2 & _);
   eapply safe_imp; [eapply safe_false; apply (seek_safe m e He); lia|]; cbn beta; intros d3 (H3 & _); lia).
Qed.

Lemma wterm_signed t : wterm (wr_signed t).
Proof.
  intros m e d Hb He Hd. split; cbn [w_read w_count wr_signed].
  - eapply safe_bind; [apply next_signed_false; assumption|]. cbn beta. intros d1 H1.
    unfold read_sign. eapply safe_bind with (Q := fun _ => True).
    { eapply safe_bind; [eapply safe_false; apply (load_keep m); lia|]. intros; exact Logic.I. }
    intros sg _. eapply safe_bind; [apply (read_int_safe_false m t e d1); [exact He|lia]|]. cbn beta. intros [v d2] [H2 _]. cbn [snd] in H2.
    eapply safe_bind; [apply arith_false|]. intros val _. cbn. lia.
  - apply next_signed_false; assumption.
Qed.

Lemma fp_digits_false F m n : forall d acc ct, d + n <= flen m -> safe False (fp_digits_ F m n d acc ct) (fun r => d <= snd r <= d + n).
Proof.
  induction n as [|n IH]; intros d acc ct Hd; cbn [fp_digits_]; [cbn; lia|].
  eapply safe_bind; [eapply safe_false; apply (load_keep m); lia|]. cbn beta. intros c Hc. destruct (is_digit c); [|cbn; lia].
  eapply safe_imp; [apply IH; lia|]. cbn beta. lia.
Qed.

Lemma read_fp_false F m e : bnd m e -> e <= flen m -> forall fuel d, d <= e -> e - d < fuel -> safe False (read_fp_ F m e fuel d) (fun r => d <= snd r <= e).
Proof.
  intros Hb He. induction fuel as [|fuel IH]; intros d Hd Hf; [lia|]. cbn [read_fp_].
  eapply safe_bind; [eapply safe_false; apply (scan_safe m e He); exact Hd|]. cbn beta. intros d1 (H1 & _).
  eapply safe_bind; [eapply safe_false; apply (load_keep m); lia|]. cbn beta. intros c1 Hc1.
  assert (H2 : d1 <= (if ((c1 =? ch_minus)%Z || (c1 =? ch_plus)%Z) then S d1 else d1) <= e).
  { destruct (_ || _) eqn:Es; [|lia]. enough (d1 < e) by lia.
    assert (Hcc : c1 = ch_plus \/ c1 = ch_minus) by (apply orb_prop in Es; destruct Es as [E|E]; apply Z.eqb_eq in E; auto).
    eapply bnd_load; [exact Hb|lia|exact Hc1|destruct Hcc as [->| ->]; reflexivity|destruct Hcc as [->| ->]; discriminate]. }
  set (d2 := if ((c1 =? ch_minus)%Z || (c1 =? ch_plus)%Z) then S d1 else d1) in *. clearbody d2. cbn zeta.
  eapply safe_bind; [apply fp_digits_false; lia|]. cbn beta. intros [[r1 ct] d3] H3. cbn [snd] in H3.
  eapply safe_bind; [eapply safe_false; apply (load_keep m); lia|]. cbn beta. intros c3 Hc3.
  eapply safe_bind with (Q := fun r => d3 <= snd r <= e).
  { destruct (Z.eqb_spec c3 ch_dot) as [->|]; [|cbn; lia].
    assert (d3 < e) by (eapply bnd_load; [exact Hb|lia|exact Hc3|reflexivity|discriminate]).
    eapply safe_bind; [apply fp_digits_false; lia|]. cbn beta. intros [[fr ct2] d'] H'. cbn in *. lia. }
  cbn beta. intros [r2 d4] H4. cbn [snd] in H4.
  eapply safe_bind; [eapply safe_false; apply (load_keep m); lia|]. cbn beta. intros c4 Hc4.
  eapply safe_bind with (Q := fun r => d4 <= snd r <= e).
  { destruct (_ || _)%Z eqn:Es; [|cbn; lia].
    assert (Hcc : c4 = ch_e \/ c4 = ch_E) by (apply orb_prop in Es; destruct Es as [E|E]; apply Z.eqb_eq in E; auto).
    assert (d4 < e) by (eapply bnd_load; [exact Hb|lia|exact Hc4|destruct Hcc as [->| ->]; reflexivity|destruct Hcc as [->| ->]; discriminate]).
    eapply safe_bind; [apply IH; lia|]. cbn beta. intros [ex d'] H'. cbn in *. lia. }
  cbn beta. intros [r3 d5] H5. cbn in *. lia.
Qed.

Lemma wterm_float F : wterm (wr_float F).
Proof.
  intros m e d Hb He Hd. split; cbn [w_read w_count wr_float]; unfold move_to_fp, move_to_non_fp.
  - eapply safe_bind; [eapply safe_false; apply (scan_safe m e He); exact Hd|]. cbn beta. intros d1 (H1 & _).
    eapply safe_bind; [apply (read_fp_false F m e Hb He); lia|]. cbn beta. intros [v d2] H2. cbn [snd] in H2.
    eapply safe_bind; [eapply safe_false; apply (scan_safe m e He); lia|]. cbn beta. intros d3 (H3 & _). cbn. lia.
  - eapply safe_bind; [eapply safe_false; apply (scan_safe m e He); exact Hd|]. cbn beta. intros d1 (H1 & _).
    eapply safe_imp; [eapply safe_false; apply (scan_safe m e He); lia|]. cbn beta. intros d3 (H3 & _). lia.
Qed.

Lemma wterm_kind k : wterm (wreader k).
Proof. destruct k; [apply wterm_unsigned|apply wterm_signed|apply wterm_float]. Qed.

(** ** Plumbing *)
Lemma mapM_term {A B} (f : A -> res B) (P : A -> Prop) (Q : B -> Prop) l : (forall x, P x -> safe False (f x) Q) -> Forall P l ->
  safe False (mapM f l) (Forall Q).
Proof.
  intros Hf. induction 1 as [|x l Hx _ IH]; cbn [mapM]; [constructor|].
  eapply safe_bind; [apply Hf; exact Hx|]. cbn beta. intros a Ha. eapply safe_bind; [exact IH|]. cbn beta. intros b Hb. cbn. constructor; assumption.
Qed.

Lemma exec_all_term {I S} (exec : I -> S -> res S) l : (forall i s, safe False (exec i s) (fun _ => True)) -> forall s, safe False (exec_all exec l s) (fun _ => True).
Proof. intros H. induction l as [|i l IH]; intros s; cbn [exec_all]; [exact Logic.I|]. eapply safe_bind; [apply H|]. intros; apply IH. Qed.

Lemma run_term {I S} (exec : I -> S -> res S) sched : (forall i s, safe False (exec i s) (fun _ => True)) -> forall ps s, safe False (run exec sched ps s) (fun _ => True).
Proof.
  intros H. induction sched as [|t sched IH]; intros ps s; cbn [run]; [apply exec_all_term; exact H|].
  destruct (pop t ps) as [[i ps']|]; [|apply IH]. eapply safe_bind; [apply H|]. intros; apply IH.
Qed.

Lemma fin_bind {A B} (r : res A) (f : A -> res B) Q : safe False r Q -> (forall a, Q a -> f a <> Stuck) -> bind r f <> Stuck.
Proof. destruct r; cbn; intros H1 H2; first [apply H2; exact H1|congruence|contradiction]. Qed.

Lemma el_chunk_false m d0 e T t : e = flen m -> t < T -> safe False (el_chunk m d0 e T t) (fun c => snd c <= flen m /\ bnd m (snd c)).
Proof.
  intros -> Ht. unfold el_chunk, line_boundary. destruct ((flen m <? d0) && (1 <? T)); [intros []|].
  assert (Ha : forall p, advance (flen m) d0 p <= flen m) by (intros; unfold advance; lia).
  eapply safe_bind; [eapply safe_false; apply (next_line_safe m (flen m)); [lia|apply Ha]|]. cbn beta. intros re (Hre & _ & Hb).
  eapply safe_bind with (Q := fun _ => True).
  { destruct (t =? 0).
    - eapply safe_imp; [eapply safe_false; apply (move_to_first_int_safe m (flen m)); [lia|apply Ha]|]. auto.
    - eapply safe_imp; [eapply safe_false; apply (next_line_safe m (flen m)); [lia|apply Ha]|]. auto. }
  intros rs _. cbn [safe snd]. unfold smaller_end. destruct (Nat.ltb_spec re (flen m)); [|split; [lia|left; reflexivity]].
  split; [lia|right; apply Hb; assumption].
Qed.

Lemma cexec_term {W} (i : cinstr W) s : safe False (cexec i s) (fun _ => True).
Proof.
  destruct i; cbn [cexec]; unfold aset, aget; try (dif; cbn; tauto).
  destruct (nth_error _ _); cbn [bind]; [|cbn; tauto]. dif; cbn; tauto.
Qed.

(** ** The edge list reader *)
Section Loops.
  Context {W : Type}.
  Variable L : ity.
  Variable wr : option (wrd W).
  Hypothesis Hwr : owterm wr.
  Variable fl : flags.
  Variable m : mem.
  Variable e : nat.
  Hypothesis He : e <= flen m.
  Hypothesis Hb : bnd m e.

  Lemma read_xy_false d : d <= e -> safe False (read_xy L m e d) (fun r => d <= snd r <= e /\ (d < e -> d < snd r)).
  Proof using He.
    intros Hd. unfold read_xy. eapply safe_bind; [apply read_int_safe_false; [exact He|exact Hd]|]. cbn beta. intros [x d1] [H1 H1']. cbn [snd] in *.
    eapply safe_bind; [eapply safe_false; apply (move_to_next_int_safe m e He); lia|]. cbn beta. intros d2 (H2 & _).
    eapply safe_bind; [apply read_int_safe_false; [exact He|lia]|]. cbn beta. intros [y d3] [H3 _]. cbn in *. lia.
  Qed.

  Lemma nl_false d : d <= e -> safe False (next_line m e d) (fun d' => d <= d' <= e /\ (d < e -> d < d')).
  Proof using He. intros Hd. eapply safe_imp; [eapply safe_false; apply (next_line_safe m e He); exact Hd|]. cbn beta. tauto. Qed.

  Lemma set_weight_false pos d : d <= e -> safe False (set_weight wr m e pos d) (fun r => d <= fst r <= e).
  Proof using He Hb Hwr.
    intros Hd. unfold set_weight. unfold owterm in Hwr. destruct wr as [w|]; [|cbn; lia].
    destruct (Hwr m e d Hb He Hd) as [H _]. eapply safe_bind; [exact H|]. cbn beta. intros [v d'] H'. cbn in *. lia.
  Qed.

  Lemma entry_count_flags_false fuel : forall d, d <= e -> e - d < fuel ->
    safe False (entry_count_flags L wr fl m e fuel d) (fun r => d <= fst r <= e /\ (d < e -> d < fst r)).
  Proof.
    induction fuel as [|fuel IH]; intros d Hd Hf; [lia|]. cbn [entry_count_flags].
    eapply safe_bind; [apply read_xy_false; exact Hd|]. cbn beta. intros [[x y] d1] [H1 H1']. cbn [snd] in *.
    eapply safe_bind with (Q := fun d2 => d1 <= d2 <= e).
    { unfold owterm in Hwr. destruct wr as [w|]; [|cbn; lia]. apply (Hwr m e d1 Hb He ltac:(lia)). }
    cbn beta. intros d2 H2. destruct (Nat.leb_spec e d2); [cbn; lia|].
    eapply safe_bind; [apply nl_false; lia|]. cbn beta. intros d3 [H3 H3']. specialize (H3' ltac:(lia)).
    destruct (dropped fl x y); [|cbn; lia]. eapply safe_imp; [apply IH; lia|]. cbn beta. lia.
  Qed.

  Lemma entry_set_flags_false fuel : forall d pos mr mc, d <= e -> e - d < fuel ->
    safe False (entry_set_flags L wr fl m e fuel d pos mr mc) (fun r => d <= es_d r <= e /\ (d < e -> d < es_d r)).
  Proof.
    induction fuel as [|fuel IH]; intros d pos mr mc Hd Hf; [lia|]. cbn [entry_set_flags].
    eapply safe_bind; [apply read_xy_false; exact Hd|]. cbn beta. intros [[x y] d1] [H1 H1']. cbn [snd] in *.
    eapply safe_bind; [apply set_weight_false; lia|]. cbn beta. intros [d2 wc] H2. cbn [fst] in H2. destruct (Nat.leb_spec e d2); [cbn; lia|].
    eapply safe_bind; [apply nl_false; lia|]. cbn beta. intros d3 [H3 H3']. specialize (H3' ltac:(lia)).
    destruct (dropped fl x y); [|cbn; lia]. eapply safe_bind; [apply IH; lia|]. cbn beta. intros r [H4 _]. cbn [safe es_d]. lia.
  Qed.

  Lemma entry_count_false d : d < e -> safe False (entry_count L wr fl m e d) (fun r => d < fst r <= e).
  Proof.
    intros Hd. unfold entry_count. destruct (has_flags fl).
    - eapply safe_imp; [apply entry_count_flags_false; lia|]. cbn beta. lia.
    - unfold entry_count_plain. eapply safe_bind; [eapply safe_false; apply (move_to_next_int_safe m e He); lia|]. cbn beta. intros d1 (H1 & _).
      destruct (Nat.leb_spec e d1); [cbn; lia|]. eapply safe_bind; [apply nl_false; lia|]. cbn beta. intros d2 [H2 H2']. specialize (H2' ltac:(lia)). cbn. lia.
  Qed.

  Lemma entry_set_false d pos mr mc : d < e -> safe False (entry_set L wr fl m e d pos mr mc) (fun r => d < es_d r <= e).
  Proof.
    intros Hd. unfold entry_set. destruct (has_flags fl).
    - eapply safe_imp; [apply entry_set_flags_false; lia|]. cbn beta. lia.
    - unfold entry_set_plain. eapply safe_bind; [apply read_xy_false; lia|]. cbn beta. intros [[x y] d1] [H1 H1']. cbn [snd] in *.
      eapply safe_bind; [apply set_weight_false; lia|]. cbn beta. intros [d2 wc] H2. cbn [fst] in H2. destruct (Nat.leb_spec e d2); [cbn; lia|].
      eapply safe_bind; [apply nl_false; lia|]. cbn beta. intros d3 [H3 H3']. specialize (H3' ltac:(lia)). cbn. lia.
  Qed.

  Lemma count_loop_false : forall fuel d ct, e - d < fuel -> safe False (count_loop L wr fl m e fuel d ct) (fun _ => True).
  Proof.
    induction fuel as [|fuel IH]; intros d ct Hf; [lia|]. cbn [count_loop]. destruct (Nat.ltb_spec d e); [|exact Logic.I].
    eapply safe_bind; [apply entry_count_false; lia|]. cbn beta. intros [d' c] H'. cbn [fst] in H'. apply IH. lia.
  Qed.

  Lemma set_loop_false : forall fuel d pos mr mc, e - d < fuel -> safe False (set_loop L wr fl m e fuel d pos mr mc) (fun _ => True).
  Proof.
    induction fuel as [|fuel IH]; intros d pos mr mc Hf; [lia|]. cbn [set_loop]. destruct (Nat.ltb_spec d e); [|exact Logic.I].
    eapply safe_bind; [apply entry_set_false; lia|]. cbn beta. intros r H'.
    eapply safe_bind; [apply IH; lia|]. cbn beta. intros [[code a] b] _. exact Logic.I.
  Qed.
End Loops.

Lemma chunks_false m d0 T : safe False (mapM (el_chunk m d0 (flen m) T) (seq 0 T)) (Forall (fun c => snd c <= flen m /\ bnd m (snd c))).
Proof.
  apply (mapM_term _ (fun t => t < T)); [intros t Ht; apply el_chunk_false; auto|]. rewrite Forall_forall. intros t Ht. apply in_seq in Ht. lia.
Qed.

Lemma arith_fin t z : arith t z <> Stuck.
Proof. unfold arith. repeat dif; discriminate. Qed.
Lemma fin_bind' {A B} (r : res A) (f : A -> res B) : r <> Stuck -> (forall a, r = Ok a -> f a <> Stuck) -> bind r f <> Stuck.
Proof. destruct r; cbn [bind]; intros H1 H2; try congruence. apply H2. reflexivity. Qed.

Lemma read_el_fin {W} L O (wr : option (wrd W)) fl m d0 T sched : owterm wr ->
  read_el L O wr fl m d0 (flen m) T sched <> Stuck.
Proof.
  intros Hw. unfold read_el, el_pass1, el_pass2.
  eapply fin_bind with (Q := fun r => Forall (fun c => snd c <= flen m /\ bnd m (snd c)) (fst r)).
  { eapply safe_bind; [apply chunks_false|]. cbn beta. intros chunks Hc.
    eapply safe_bind with (Q := Forall (fun _ => True)).
    - eapply mapM_term; [|exact Hc]. cbn beta. intros c [H1 H2]. apply count_loop_false; auto.
    - intros counts _. exact Hc. }
  intros [chunks counts] Hc. cbn [fst] in Hc.
  apply fin_bind'. { unfold coo_alloc. dif; discriminate. } intros st0 _.
  eapply fin_bind with (Q := Forall (fun _ => True)).
  { apply (mapM_term _ (fun cs => snd (fst cs) <= flen m /\ bnd m (snd (fst cs)))).
    - intros cs [H1 H2]. apply set_loop_false; auto.
    - rewrite Forall_forall in *. intros [c p] Hin. apply in_combine_l in Hin. apply Hc in Hin. exact Hin. }
  intros p2 _. eapply fin_bind; [apply run_term; apply cexec_term|]. cbn beta. intros st _.
  apply fin_bind'; [apply arith_fin|]. intros a _. apply fin_bind'; [apply arith_fin|]. intros b _. discriminate.
Qed.
