(** * TensorRound: a written tensor is a well-formed tensor file *)

From Verif Require Import Base Reader ReaderLemmas Sched SchedLemmas Spec SpecDec SpecFp SpecText SpecTensor SpecTensorOut Coo CooLemmas WeightLemmas ElSpec ElFinal ElThms Ascii AsciiLemmas StbLemmas WriteLemmas TextRound Codec Bin TensorOut WriteGen TensorOutLemmas.

Definition tline_of {W} (tw : option (W -> list byte)) (e : list Z * W) : tline :=
  match fst e with
  | [] => mkTline [] [] [] []
  | x :: xs => mkTline (dec x) (map (fun y => ([ch_sp], dec y)) xs) (post_of tw (snd e)) []
  end.
Definition tns_of {W} (tw : option (W -> list byte)) (es : list (list Z * W)) : tns_file := mkTns [] (map (tline_of tw) es).

Lemma spaced_labels x xs : spaced (map dec (x :: xs)) = dec x ++ concat (map (fun p => fst p ++ snd p) (map (fun y => ([ch_sp], dec y)) xs)).
Proof.
  revert x; induction xs as [|y xs IH]; intros x; [cbn [map spaced concat]; rewrite app_nil_r; reflexivity|].
  cbn [map]. rewrite spaced_cons by discriminate. change (dec y :: map dec xs) with (map dec (y :: xs)). rewrite IH.
  cbn [map concat fst snd]. reflexivity.
Qed.

Lemma tline_of_text {W} tw (e : list Z * W) : fst e <> [] -> tline_text (tline_of tw e) = tensor_line dec tw e.
Proof.
  intros H. unfold tline_of, tensor_line. destruct (fst e) as [|x xs]; [congruence|]. unfold tline_text, labels_text. cbn [t_first t_more t_post t_gap].
  rewrite <- spaced_labels. destruct tw as [f|]; cbn [post_of].
  - rewrite spaced_app1 by discriminate. repeat rewrite <- app_assoc. reflexivity.
  - rewrite app_nil_r. reflexivity.
Qed.

Lemma tns_of_text {W} tw (es : list (list Z * W)) : Forall (fun e => fst e <> []) es -> tns_text (tns_of tw es) = tensor_text dec tw es.
Proof.
  intros H. unfold tns_text, tns_of, tensor_text. cbn [tn_head tn_lines app]. rewrite map_map. f_equal. apply map_ext_in.
  intros e He. apply tline_of_text. rewrite Forall_forall in H. apply H; exact He.
Qed.

Lemma dec_vals l : Forall (fun x => 0 <= x)%Z l -> map (fun y => dval (dec y)) l = l.
Proof. induction 1 as [|x l H HF IH]; [reflexivity|]. cbn [map]. rewrite IH. f_equal. apply dec_digits; exact H. Qed.

Definition tlabels_ok {W} (L : ity) (k : nat) (e : list Z * W) : Prop :=
  length (fst e) = k /\ Forall (fun x => 0 <= x <= imax L)%Z (fst e).

Lemma tline_of_labels {W} L k tw (e : list Z * W) : 1 <= k -> tlabels_ok L k e -> t_labels (tline_of tw e) = fst e.
Proof.
  intros Hk [H1 H2]. unfold t_labels, tline_of. destruct (fst e) as [|x xs]; [cbn [length] in H1; lia|]. cbn [t_first t_more].
  rewrite map_map. cbn [snd]. inversion H2; subst. rewrite dec_vals by (eapply Forall_impl; [|eassumption]; cbn beta; lia). f_equal. apply dec_digits. lia.
Qed.

Lemma sep_sp : separator [ch_sp].
Proof. split; [discriminate|constructor; [repeat split|constructor]]. Qed.

Lemma tline_of_wf {W} L k weighted tw (e : list Z * W) : 1 <= k -> tlabels_ok L k e ->
  rest (post_of tw (snd e)) -> (weighted = true -> holds_number (post_of tw (snd e))) ->
  wf_tline weighted k false (tline_of tw e).
Proof.
  intros Hk He Hr Hn. unfold wf_tline. rewrite (tline_of_labels L k tw e Hk He). destruct He as [H1 H2]. split; [exact H1|].
  unfold tline_of. destruct (fst e) as [|x xs]; [cbn [length] in H1; lia|]. cbn [t_first t_more t_post t_gap]. inversion H2; subst.
  split; [apply dec_digits; lia|]. split; [|split; [exact Hr|split; [exact Hn|apply gap_nil]]].
  apply Forall_map. cbn [fst snd]. eapply Forall_impl; [|eassumption]. cbn beta. intros y Hy. split; [apply sep_sp|apply dec_digits; lia].
Qed.

Lemma wf_tlines_all weighted k ls : Forall (wf_tline weighted k false) ls -> wf_tlines weighted k ls.
Proof.
  assert (G : forall s, gap false s -> gap true s).
  { induction 1; [constructor|constructor; assumption|constructor; assumption|discriminate]. }
  assert (H : forall l, wf_tline weighted k false l -> wf_tline weighted k true l).
  { intros l (H1 & H2 & H3 & H4 & H5 & H6). split; [exact H1|]. split; [exact H2|]. split; [exact H3|]. split; [exact H4|]. split; [exact H5|apply G, H6]. }
  induction 1 as [|l ls Hl HF IH]; cbn [wf_tlines]; [exact I|]. destruct ls as [|l' ls]; [apply H; exact Hl|].
  split; [exact Hl|exact IH].
Qed.

Lemma tns_of_wf {W} L k weighted tw (es : list (list Z * W)) : 1 <= k -> es <> [] -> Forall (tlabels_ok L k) es ->
  Forall (fun e => rest (post_of tw (snd e)) /\ (weighted = true -> holds_number (post_of tw (snd e)))) es ->
  wf_tns weighted k (tns_of tw es).
Proof.
  intros Hk Hne HF HR. split; [destruct es; [congruence|discriminate]|]. split; [apply gap_nil|]. apply wf_tlines_all.
  cbn [tns_of tn_lines]. apply Forall_map. rewrite Forall_forall in *. intros e He. destruct (HR e He) as [R1 R2]. apply (tline_of_wf L); auto.
Qed.

Lemma tns_of_entries {W} L k tw (es : list (list Z * W)) : 1 <= k -> Forall (tlabels_ok L k) es ->
  map t_labels (tn_lines (tns_of tw es)) = map fst es.
Proof.
  intros Hk HF. cbn [tns_of tn_lines]. rewrite map_map. apply map_ext_in. intros e He. rewrite Forall_forall in HF. apply (tline_of_labels L k); auto.
Qed.

Lemma sp_spacing : spacing [ch_sp].
Proof. split; [apply sep_sp|intros E; discriminate E]. Qed.

Lemma tns_of_plain {W} (weighted : bool) tw (es : list (list Z * W)) :
  Forall (fun e => if weighted then plain_weight (post_of tw (snd e)) else plain_tail (post_of tw (snd e))) es ->
  Forall (fun e => fst e <> []) es -> plain_first weighted (tns_of tw es).
Proof.
  intros HP Hn. unfold plain_first, tns_of. cbn [tn_lines]. destruct es as [|e es]; cbn [map]; [exact I|].
  inversion HP; subst. inversion Hn; subst. unfold plain_line, tline_of. destruct (fst e) as [|x xs]; [congruence|]. cbn [t_more t_post].
  split; [|assumption]. apply Forall_map. cbn [fst]. apply Forall_forall. intros y _. apply sp_spacing.
Qed.

Lemma plain_nil : plain_tail [].
Proof. exists [], []. split; [reflexivity|]. split; [constructor|exact I]. Qed.

(** Integer weights. *)
Lemma int_plain z : plain_weight (ch_sp :: dec z) /\ holds_number (ch_sp :: dec z).
Proof.
  assert (H : exists sg ds, dec z = sg ++ ds /\ (sg = [] \/ sg = [ch_minus]) /\ digits ds).
  { unfold dec. destruct (Z.ltb_spec z 0).
    - exists [ch_minus], (dec_abs (- z)). destruct (dec_abs_canonical (- z) ltac:(lia)) as (D1 & _). auto.
    - exists [], (dec_abs z). destruct (dec_abs_canonical z ltac:(lia)) as (D1 & _). auto. }
  destruct H as (sg & ds & -> & Hs & [Hn Hd]). destruct ds as [|c ds]; [congruence|]. inversion Hd; subst.
  assert (Hsep : spacing (ch_sp :: sg)).
  { split; [|discriminate]. split; [discriminate|]. constructor; [repeat split|]. destruct Hs as [->| ->]; [constructor|]. constructor; [repeat split|constructor]. }
  split.
  - exists (ch_sp :: sg), c, ds, []. rewrite app_nil_r. split; [reflexivity|]. split; [exact Hsep|]. split; [assumption|]. split; [|apply plain_nil].
    eapply Forall_impl; [|eassumption]. cbn beta. auto.
  - exists (ch_sp :: sg), c, ds. split; [reflexivity|]. split; [apply Hsep|assumption].
Qed.

(** Floating-point weights. *)
Lemma fp_plain r : wf_real r -> plain_weight (ch_sp :: stb_chars 0 0 r) /\ holds_number (ch_sp :: stb_chars 0 0 r).
Proof.
  intros Hwf. destruct r as [|neg sn dp]; [destruct Hwf|]. destruct Hwf as [Hd Hne].
  destruct (stb_layout 0 0 neg sn dp Hd Hne) as (ip & fp & E & [Hi1 Hi2] & Hf & Hl & _). rewrite E.
  set (sg := if neg then [ch_minus] else []). destruct ip as [|c ip]; [congruence|]. inversion Hi2; subst.
  assert (Hsep : spacing (ch_sp :: sg)).
  { split; [|discriminate]. split; [discriminate|]. constructor; [repeat split|]. destruct neg; unfold sg; [constructor; [repeat split|constructor]|constructor]. }
  split.
  - exists (ch_sp :: sg), c, (ip ++ ch_dot :: fp), []. rewrite app_nil_r. split; [reflexivity|]. split; [exact Hsep|]. split; [assumption|]. split; [|apply plain_nil].
    apply Forall_app; split; [eapply Forall_impl; [|eassumption]; cbn beta; auto|]. constructor; [auto|]. eapply Forall_impl; [|exact Hf]; cbn beta; auto.
  - exists (ch_sp :: sg), c, (ip ++ ch_dot :: fp). split; [reflexivity|]. split; [apply Hsep|assumption].
Qed.
