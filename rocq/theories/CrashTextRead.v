(** * CrashTextRead: what an interrupted text write leaves is a file with blanks *)

From Coq Require Import Permutation.
From Verif Require Import Base Reader ReaderLemmas Sched SchedLemmas SchedMore Spec SpecDec SpecFp SpecText SpecTensor SpecTensorOut SpecCrashText Coo CooLemmas WeightLemmas ElSpec ElFinal ElThms Ascii AsciiLemmas StbLemmas WriteLemmas TextRound Codec Bin Race RaceLemmas TensorOut WriteGen TensorOutLemmas TensorRound CrashText CrashTextLemmas.

Definition junk (s : list byte) : Prop := Forall (fun b => b = 0 \/ b = 1)%Z s.

Lemma junk_gap s fin : junk s -> gap fin s.
Proof. induction 1 as [|b s Hb HF IH]; [apply gap_nil|]. apply gap_junk; [destruct Hb as [->| ->]; reflexivity..|exact IH]. Qed.

(** The blanks after the last line of a thread go with that line, or with the
    line before. *)
Lemma glue {A} (line : A -> list byte) (segs : list (list A * list byte)) : Forall (fun q => junk (snd q)) segs ->
  exists h egs, map fst egs = concat (map fst segs) /\ junk h /\ Forall (fun q => junk (snd q)) egs /\
    concat (map (fun q => gtext line (fst q) ++ snd q) segs) = h ++ concat (map (fun p => line (fst p) ++ snd p) egs).
Proof.
  induction 1 as [|[l j] segs Hj HF (h & egs & E1 & E2 & E3 & E4)].
  - exists [], []. repeat split; constructor.
  - cbn [fst snd map concat] in *. induction l as [|e l IH] using rev_ind.
    + exists (j ++ h), egs. split; [exact E1|]. split; [apply Forall_app; split; assumption|]. split; [exact E3|].
      cbn [gtext map concat app]. rewrite E4, <- app_assoc. reflexivity.
    + exists [], (map (fun a => (a, [])) l ++ (e, j ++ h) :: egs). split; [|split; [constructor|split]].
      * rewrite map_app, map_map. cbn [map fst]. rewrite map_id, E1, <- app_assoc. reflexivity.
      * apply Forall_app; split; [apply Forall_map, Forall_forall; intros; constructor|]. constructor; [apply Forall_app; split; assumption|exact E3].
      * cbn [app]. rewrite E4. rewrite map_app, concat_app, map_map. cbn [fst snd map concat]. unfold gtext. rewrite map_app, concat_app. cbn [map concat].
        rewrite app_nil_r. repeat rewrite <- app_assoc. do 2 f_equal. apply map_ext. intros a. rewrite app_nil_r. reflexivity.
Qed.

(** ** COO *)
Lemma gsizes_sizes {W} lf (wf : option (fmt W)) c p : forall acc, sizes lf wf c p acc = gsizes (entry_size lf wf c) p acc.
Proof. induction p as [|i p IH]; intros acc; [reflexivity|]. cbn [sizes gsizes]. apply bind_ext. intros s. apply IH. Qed.
Lemma gputs_puts {W} lf (wf : option (fmt W)) c p : forall a, thread_puts lf wf c a p = gputs (entry_puts lf wf c) a p.
Proof. induction p as [|i p IH]; intros a; [reflexivity|]. cbn [thread_puts gputs]. apply bind_ext. intros [q f]. rewrite IH. reflexivity. Qed.
Lemma mapM_ext_ {A B} (f g : A -> res B) l : (forall a, f a = g a) -> mapM f l = mapM g l.
Proof. intros H. induction l as [|a l IH]; [reflexivity|]. cbn [mapM]. rewrite H, IH. reflexivity. Qed.
Lemma coo_plan_gen {W} lf (wf : option (fmt W)) c parts : coo_write_plan lf wf c parts = gplan (entry_size lf wf c) (entry_puts lf wf c) parts.
Proof.
  unfold coo_write_plan, gplan. rewrite (mapM_ext_ _ (fun es => gsizes (entry_size lf wf c) es 0) parts (fun es => gsizes_sizes lf wf c es 0)).
  apply bind_ext. intros ss. apply bind_ext. intros f. rewrite (mapM_ext_ _ (fun q => gputs (entry_puts lf wf c) (Z.of_nat (fst q)) (snd q)) _ (fun q => gputs_puts lf wf c (snd q) (Z.of_nat (fst q)))). reflexivity.
Qed.
Lemma coo_stopped_gen {W} lf (wf : option (fmt W)) c parts ns sched :
  coo_write_stopped lf wf c parts ns sched = gwrite_stopped (entry_size lf wf c) (entry_puts lf wf c) parts ns sched.
Proof. unfold coo_write_stopped, gwrite_stopped. rewrite coo_plan_gen. reflexivity. Qed.

(** Formatted, with the values known. *)
Lemma fput_ok {V} (fm : fmt V) v txt ex a : formats fm v txt -> fvals fm v txt ex ->
  exists ps, f_put fm (Z.of_nat a) v = Ok (ps, Z.of_nat (a + length txt)) /\ vals a txt ps /\ length ps = length txt + ex.
Proof.
  intros [_ H] HV. destruct (H a) as (ps & E & _). destruct (HV a) as (ps' & x & E' & V1 & V2). rewrite E in E'. injection E' as <- <-. exists ps. auto.
Qed.
Lemma vals_sep a t p s : vals a t p -> vals a (t ++ [s]) (p ++ [Put (Z.of_nat (a + length t)) s]).
Proof. intros H. apply vals_app; [exact H|]. apply (vals_puts_at [s] (a + length t)). Qed.

Section CooVals.
  Context {W : Type}.
  Variable lf : fmt Z.
  Variable wf : option (fmt W).
  Variable c : coo W.
  Variable es : list (Z * Z * W).
  Variable tx : Z -> list byte.
  Variable tw : W -> list byte.
  Variable ex : nat.
  Hypothesis Hc : holds c es.
  Hypothesis Hw : is_some wf = true -> holds_weights c es.
  Hypothesis Hx : forall e, In e es -> formats lf (fst (fst e)) (tx (fst (fst e))) /\ formats lf (snd (fst e)) (tx (snd (fst e))).
  Hypothesis Hxv : forall e, In e es -> fvals lf (fst (fst e)) (tx (fst (fst e))) 0 /\ fvals lf (snd (fst e)) (tx (snd (fst e))) 0.
  Hypothesis Hf : forall f e, wf = Some f -> In e es -> formats f (snd e) (tw (snd e)).
  Hypothesis Hfv : forall f e, wf = Some f -> In e es -> fvals f (snd e) (tw (snd e)) ex.
  Hypothesis Hex : wf = None -> ex = 0.
  Let tw' := match wf with None => None | Some _ => Some tw end.

  Lemma entry_puts_vals i e a : nth_error es i = Some e ->
    exists ps x, entry_puts lf wf c (Z.of_nat a) i = Ok (ps, x) /\ vals a (coo_line tx tw' e) ps /\ length ps = length (coo_line tx tw' e) + ex.
  Proof.
    intros E. pose proof (nth_error_In _ _ E) as Hi. destruct (Hx e Hi) as [Fx Fy]. destruct (Hxv e Hi) as [Vx Vy].
    unfold entry_puts. pose proof Hc as (_ & Cx & Cy). unfold cell_of at 1. unfold aget. rewrite Cx, nth_error_map, E. cbn [option_map bind].
    destruct (fput_ok lf _ _ 0 a Fx Vx) as (px & Epx & Mx & Lx). rewrite Epx. cbn [bind].
    unfold cell_of at 1. unfold aget. rewrite Cy, nth_error_map, E. cbn [option_map bind].
    replace (Z.of_nat (a + length (tx (fst (fst e)))) + 1)%Z with (Z.of_nat (a + length (tx (fst (fst e))) + 1)) by lia.
    destruct (fput_ok lf _ _ 0 (a + length (tx (fst (fst e))) + 1) Fy Vy) as (py & Epy & My & Ly). rewrite Epy. cbn [bind].
    pose proof (fun f => Hf f e) as Hf'. pose proof (fun f => Hfv f e) as Hfv'. pose proof Hw as Hw'. pose proof Hex as Hex'.
    destruct e as [[x y] w]; cbn [fst snd] in *. unfold tw', coo_line. clear Hw Hf Hfv Hex. destruct wf as [f|] eqn:Ef.
    - unfold cell_of, aget. rewrite (Hw' eq_refl), nth_error_map, E. cbn [option_map bind snd].
      set (b := a + length (tx x) + 1) in *.
      replace (Z.of_nat (b + length (tx y)) + 1)%Z with (Z.of_nat (b + length (tx y) + 1)) by lia.
      destruct (fput_ok f _ _ ex (b + length (tx y) + 1) (Hf' f eq_refl Hi) (Hfv' f eq_refl Hi)) as (pw & Epw & Mw & Lw). rewrite Epw. cbn [bind].
      do 2 eexists. split; [reflexivity|]. split.
      + replace (tx x ++ [ch_sp] ++ tx y ++ ([ch_sp] ++ tw w) ++ [ch_nl])
          with ((tx x ++ [ch_sp]) ++ (tx y ++ [ch_sp]) ++ (tw w ++ [ch_nl])) by now rewrite <- !app_assoc.
        match goal with |- vals _ _ ?P => match P with px ++ [?A] ++ py ++ (?B :: pw) ++ ?C =>
          replace P with ((px ++ [A]) ++ (py ++ [B]) ++ (pw ++ C)) by now rewrite <- !app_assoc end end.
        apply vals_app; [apply vals_sep; exact Mx|]. rewrite app_length; cbn [length].
        rewrite Nat.add_assoc. fold b. apply vals_app; [apply vals_sep; exact My|].
        rewrite app_length; cbn [length]. rewrite Nat.add_assoc. apply vals_sep; exact Mw.
      + rewrite ?app_length; cbn [length]; rewrite ?app_length; cbn [length]; rewrite ?app_length; cbn [length]; lia.
    - rewrite (Hex' eq_refl). cbn [bind]. set (b := a + length (tx x) + 1) in *.
      do 2 eexists. split; [reflexivity|]. split.
      + replace (tx x ++ [ch_sp] ++ tx y ++ [] ++ [ch_nl])
          with ((tx x ++ [ch_sp]) ++ (tx y ++ [ch_nl])) by now rewrite <- !app_assoc.
        match goal with |- vals _ _ ?P => match P with px ++ [?A] ++ py ++ [] ++ ?C =>
          replace P with ((px ++ [A]) ++ (py ++ C)) by now rewrite <- !app_assoc end end.
        apply vals_app; [apply vals_sep; exact Mx|]. rewrite app_length; cbn [length].
        rewrite Nat.add_assoc. fold b. apply vals_sep; exact My.
      + rewrite ?app_length; cbn [length]; rewrite ?app_length; cbn [length]; rewrite ?app_length; cbn [length]; lia.
  Qed.

  Lemma coo_line_ne e : coo_line tx tw' e <> [].
  Proof using Type. destruct e as [[x y] w]. unfold coo_line. destruct (tx x); discriminate. Qed.

  Lemma coo_stopped_ok parts ns sched : Forall (Forall (fun i => i < length es)) parts -> concat parts <> [] ->
    exists s, coo_write_stopped lf wf c parts ns sched = Ok s /\ partly_written (coo_text tx tw' (pick es (concat parts))) s.
  Proof.
    intros HF Hn. rewrite coo_stopped_gen.
    exact (gstopped_ok (entry_size lf wf c) (entry_puts lf wf c) es (coo_line tx tw') ex (entry_size_ok lf wf c es tx tw Hc Hw Hx Hf) (entry_puts_ok lf wf c es tx tw Hc Hw Hx Hf) (fun e _ => coo_line_ne e) entry_puts_vals parts ns sched HF Hn).
  Qed.

  Lemma coo_done_ok parts dones sched : Forall (Forall (fun i => i < length es)) parts -> concat parts <> [] -> first_entries dones parts ->
    exists s h egs, coo_write_stopped lf wf c parts (map (fun d => length (coo_text tx tw' (pick es d)) + ex * length d) dones) sched = Ok s /\
      length s = length (coo_text tx tw' (pick es (concat parts))) /\
      map fst egs = pick es (concat dones) /\ junk h /\ Forall (fun q => junk (snd q)) egs /\
      s = h ++ concat (map (fun p => coo_line tx tw' (fst p) ++ snd p) egs).
  Proof.
    intros HF Hn HD.
    destruct (gdone_ok (entry_size lf wf c) (entry_puts lf wf c) es (coo_line tx tw') ex (entry_size_ok lf wf c es tx tw Hc Hw Hx Hf) (entry_puts_ok lf wf c es tx tw Hc Hw Hx Hf) (fun e _ => coo_line_ne e) entry_puts_vals parts dones sched HF Hn HD) as (js & Lj & Hj & Ls & E).
    destruct (glue (coo_line tx tw') (combine (map (pick es) dones) js)) as (h & egs & G1 & G2 & G3 & G4).
    { apply Forall_forall. intros [d j] Hi. apply in_combine_r in Hi. rewrite Forall_forall in Hj. exact (Hj j Hi). }
    assert (Em : map (fun q => gtext (coo_line tx tw') (fst q) ++ snd q) (combine (map (pick es) dones) js) = map (fun q => gtext (coo_line tx tw') (pick es (fst q)) ++ snd q) (combine dones js)).
    { clear. revert js. induction dones as [|d ds IH]; intros [|j js]; [reflexivity..|]. cbn [map combine fst snd]. rewrite IH. reflexivity. }
    rewrite Em in G4. exists (concat (map (fun q => gtext (coo_line tx tw') (pick es (fst q)) ++ snd q) (combine dones js))), h, egs.
    split; [rewrite coo_stopped_gen; exact E|]. split; [exact Ls|]. split; [|split; [exact G2|split; [exact G3|exact G4]]].
    rewrite G1. clear - Lj. revert js Lj. induction dones as [|d ds IH]; intros [|j js] Lj; try discriminate; [reflexivity|].
    cbn [map combine fst concat]. rewrite pick_app, IH by (cbn in Lj; lia). reflexivity.
  Qed.
End CooVals.

(** A file whose lines are followed by blanks. *)
Definition line_bl {W} (tw : option (W -> list byte)) (p : Z * Z * W * list byte) : line :=
  mkLine (dec (fst (fst (fst p)))) [ch_sp] (dec (snd (fst (fst p)))) (post_of tw (snd (fst p))) (snd p).
Definition file_bl {W} (tw : option (W -> list byte)) (h : list byte) (egs : list (Z * Z * W * list byte)) : el_file :=
  mkEl h (map (line_bl tw) egs).

Lemma file_bl_text {W} tw h (egs : list (Z * Z * W * list byte)) : el_text (file_bl tw h egs) = h ++ concat (map (fun p => coo_line dec tw (fst p) ++ snd p) egs).
Proof.
  unfold el_text, file_bl. cbn [el_head el_lines]. rewrite map_map. do 2 f_equal. apply map_ext.
  intros [[[x y] w] g]. unfold Spec.line_text, line_bl, post_of. cbn [l_x l_sep l_y l_post l_gap coo_line fst snd].
  destruct tw; repeat rewrite <- app_assoc; reflexivity.
Qed.

Lemma file_bl_pairs {W} L tw h (egs : list (Z * Z * W * list byte)) : Forall (label_ok L) (map fst egs) -> el_pairs (file_bl tw h egs) = map fst (map fst egs).
Proof.
  intros HF. unfold el_pairs, file_bl. cbn [el_lines]. rewrite !map_map. apply map_ext_in.
  intros [[[x y] w] g] Hi. rewrite Forall_forall in HF. destruct (HF (x, y, w) (in_map fst _ _ Hi)) as [H1 H2]. cbn [fst snd] in *.
  unfold l_pair, line_bl. cbn [l_x l_y fst snd]. rewrite (proj2 (dec_digits x ltac:(lia))), (proj2 (dec_digits y ltac:(lia))). reflexivity.
Qed.

Lemma file_bl_wf {W} L tw h (egs : list (Z * Z * W * list byte)) : junk h -> Forall (fun q => junk (snd q)) egs ->
  Forall (label_ok L) (map fst egs) -> Forall (fun e => rest (post_of tw (snd e))) (map fst egs) -> wf_el (file_bl tw h egs).
Proof.
  intros Hh Hg HF HR. split; cbn [file_bl el_lines el_head]; [apply junk_gap; exact Hh|]. apply wf_lines_all.
  apply Forall_map. rewrite Forall_forall in *. intros [[[x y] w] g] Hi. destruct (HF _ (in_map fst _ _ Hi)) as [H1 H2]. specialize (HR _ (in_map fst _ _ Hi)). specialize (Hg _ Hi).
  cbn [fst snd] in *. repeat split; cbn [line_bl l_x l_sep l_y l_post l_gap fst snd]; try (apply dec_digits; lia); try apply HR;
    try discriminate; try (repeat constructor; fail). apply junk_gap. exact Hg.
Qed.

Lemma file_bl_fit {W} L tw h (egs : list (Z * Z * W * list byte)) : Forall (label_ok L) (map fst egs) -> labels_fit (imax L - 1) (file_bl tw h egs).
Proof.
  intros HF. unfold labels_fit. rewrite (file_bl_pairs L) by exact HF. apply Forall_map.
  eapply Forall_impl; [|exact HF]. intros [[x y] w] [H1 H2]. cbn [fst snd] in *. lia.
Qed.

(** ** Tensors *)
Section TensorVals.
  Context {W : Type}.
  Variable O : ity.
  Hypothesis HO : is_ity O.
  Variable lf : fmt Z.
  Variable wf : option (fmt W).
  Variable t : tensor W.
  Variable k : nat.
  Variable es : list (list Z * W).
  Variable tx : Z -> list byte.
  Variable tw : W -> list byte.
  Variable ex : nat.
  Hypothesis Ht : tensor_holds t k es.
  Hypothesis Hfit : (Z.of_nat (k * length es) <= imax O)%Z.
  Hypothesis Hk : 1 <= k.
  Hypothesis Hw : is_some wf = true -> tensor_weights t es.
  Hypothesis Hx : forall e x, In e es -> In x (fst e) -> formats lf x (tx x).
  Hypothesis Hxv : forall e x, In e es -> In x (fst e) -> fvals lf x (tx x) 0.
  Hypothesis Hf : forall f e, wf = Some f -> In e es -> formats f (snd e) (tw (snd e)).
  Hypothesis Hfv : forall f e, wf = Some f -> In e es -> fvals f (snd e) (tw (snd e)) ex.
  Hypothesis Hex : wf = None -> ex = 0.
  Let tw' := match wf with None => None | Some _ => Some tw end.

  Lemma tlabels_puts_vals i e : nth_error es i = Some e -> forall n j a, j + n = k -> 1 <= n ->
    exists ps, tlabels_puts O lf t i n j (Z.of_nat a) = Ok (ps, Z.of_nat (a + length (spaced (map tx (skipn j (fst e)))))) /\
      vals a (spaced (map tx (skipn j (fst e)))) ps /\ length ps = length (spaced (map tx (skipn j (fst e)))).
  Proof.
    intros Ei. pose proof (len_fst t k es Ht i e Ei) as Hl. induction n as [|n IH]; intros j a Hj Hn; [lia|]. cbn [tlabels_puts].
    destruct (nth_error (fst e) j) as [x|] eqn:Ej; [|apply nth_error_None in Ej; lia].
    rewrite (tlabel_at O HO t k es Ht Hfit i e j x Ei Ej). cbn [bind].
    destruct (fput_ok lf x (tx x) 0 a (Hx e x (nth_error_In _ _ Ei) (nth_error_In _ _ Ej)) (Hxv e x (nth_error_In _ _ Ei) (nth_error_In _ _ Ej))) as (px & Epx & Mx & Lx).
    rewrite Epx. cbn [bind].
    rewrite (skipn_cons _ _ _ Ej). cbn [map]. rewrite (order_nat t k es Ht). destruct n as [|n].
    - destruct (Nat.ltb_spec j (k - 1)); [lia|]. cbn [tlabels_puts bind]. rewrite skipn_all2 by lia. cbn [map spaced].
      eexists. split; [reflexivity|]. rewrite !app_nil_r. split; [exact Mx|lia].
    - destruct (Nat.ltb_spec j (k - 1)); [|lia].
      replace (Z.of_nat (a + length (tx x)) + 1)%Z with (Z.of_nat (a + length (tx x) + 1)) by lia.
      destruct (IH (S j) (a + length (tx x) + 1)) as (ps & Eps & Mps & Lps); [lia|lia|]. rewrite Eps. cbn [bind].
      rewrite spaced_cons.
      + eexists. split; [f_equal; f_equal; rewrite !app_length; cbn [length]; lia|]. split.
        * rewrite !app_assoc. apply vals_app; [apply vals_sep; exact Mx|].
          rewrite app_length. cbn [length]. rewrite Nat.add_assoc. exact Mps.
        * rewrite !app_length. cbn [length]. lia.
      + intros E. apply map_eq_nil in E. pose proof (skipn_length (S j) (fst e)) as HL. rewrite E in HL. cbn [length] in HL. lia.
  Qed.

  Lemma tentry_puts_vals i e a : nth_error es i = Some e ->
    exists ps x, tentry_puts O lf wf t (Z.of_nat a) i = Ok (ps, x) /\ vals a (tensor_line tx tw' e) ps /\ length ps = length (tensor_line tx tw' e) + ex.
  Proof.
    intros Ei. pose proof (line_text wf tx tw e (fst_ne O t k es Ht Hfit Hk i e Ei)) as EL. unfold tw'. rewrite EL. clear EL.
    unfold tentry_puts. rewrite (order_nat t k es Ht).
    destruct (tlabels_puts_vals i e Ei k 0 a) as (pl & Epl & Ml & Ll); [lia|lia|]. cbn [skipn] in Epl, Ml, Ll. rewrite Epl. cbn [bind].
    set (s := spaced (map tx (fst e))) in *.
    pose proof (fun H => cell_tw wf t es Hw i e H Ei) as Cw. pose proof (fun f H => Hf f e H (nth_error_In _ _ Ei)) as Hf'.
    pose proof (fun f H => Hfv f e H (nth_error_In _ _ Ei)) as Hfv'. pose proof Hex as Hex'.
    clear Hw Hf Hfv Hex. destruct wf as [f|].
    - rewrite Cw by reflexivity. cbn [bind].
      replace (Z.of_nat (a + length s) + 1)%Z with (Z.of_nat (a + length s + 1)) by lia.
      destruct (fput_ok f _ _ ex (a + length s + 1) (Hf' f eq_refl) (Hfv' f eq_refl)) as (pw & Epw & Mw & Lw). rewrite Epw. cbn [bind].
      do 2 eexists. split; [reflexivity|]. split.
      + replace (s ++ (ch_sp :: tw (snd e)) ++ [ch_nl]) with ((s ++ [ch_sp]) ++ (tw (snd e) ++ [ch_nl])) by now rewrite <- !app_assoc.
        match goal with |- vals _ _ ?P => match P with pl ++ (?B :: pw) ++ ?C =>
          replace P with ((pl ++ [B]) ++ (pw ++ C)) by now rewrite <- !app_assoc end end.
        apply vals_app; [apply vals_sep; exact Ml|]. rewrite app_length; cbn [length]. rewrite Nat.add_assoc. apply vals_sep; exact Mw.
      + rewrite ?app_length; cbn [length]; rewrite ?app_length; cbn [length]; rewrite ?app_length; cbn [length]; lia.
    - cbn [bind app]. do 2 eexists. split; [reflexivity|]. split; [apply vals_sep; exact Ml|].
      rewrite (Hex' eq_refl). rewrite ?app_length; cbn [length]; lia.
  Qed.

  Lemma tensor_line_ne e : tensor_line tx tw' e <> [].
  Proof using Type. intros E. unfold tensor_line in E. apply app_eq_nil in E as [_ E]. discriminate. Qed.

  Lemma tensor_stopped_ok parts ns sched : Forall (Forall (fun i => i < length es)) parts -> concat parts <> [] ->
    exists s, tensor_write_stopped O lf wf t parts ns sched = Ok s /\ partly_written (tensor_text tx tw' (pick es (concat parts))) s.
  Proof.
    intros HF Hn.
    exact (gstopped_ok (tentry_size O lf wf t) (tentry_puts O lf wf t) es (tensor_line tx tw') ex
      (tentry_size_ok O HO lf wf t k es tx tw Ht Hfit Hk Hw Hx Hf) (tentry_puts_ok O HO lf wf t k es tx tw Ht Hfit Hk Hw Hx Hf) (fun e _ => tensor_line_ne e) tentry_puts_vals parts ns sched HF Hn).
  Qed.

  Lemma tensor_done_ok parts dones sched : Forall (Forall (fun i => i < length es)) parts -> concat parts <> [] -> first_entries dones parts ->
    exists s h egs, tensor_write_stopped O lf wf t parts (map (fun d => length (tensor_text tx tw' (pick es d)) + ex * length d) dones) sched = Ok s /\
      length s = length (tensor_text tx tw' (pick es (concat parts))) /\
      map fst egs = pick es (concat dones) /\ junk h /\ Forall (fun q => junk (snd q)) egs /\
      s = h ++ concat (map (fun p => tensor_line tx tw' (fst p) ++ snd p) egs).
  Proof.
    intros HF Hn HD.
    destruct (gdone_ok (tentry_size O lf wf t) (tentry_puts O lf wf t) es (tensor_line tx tw') ex
      (tentry_size_ok O HO lf wf t k es tx tw Ht Hfit Hk Hw Hx Hf) (tentry_puts_ok O HO lf wf t k es tx tw Ht Hfit Hk Hw Hx Hf) (fun e _ => tensor_line_ne e) tentry_puts_vals parts dones sched HF Hn HD) as (js & Lj & Hj & Ls & E).
    destruct (glue (tensor_line tx tw') (combine (map (pick es) dones) js)) as (h & egs & G1 & G2 & G3 & G4).
    { apply Forall_forall. intros [d j] Hi. apply in_combine_r in Hi. rewrite Forall_forall in Hj. exact (Hj j Hi). }
    assert (Em : map (fun q => gtext (tensor_line tx tw') (fst q) ++ snd q) (combine (map (pick es) dones) js) = map (fun q => gtext (tensor_line tx tw') (pick es (fst q)) ++ snd q) (combine dones js)).
    { clear. revert js. induction dones as [|d ds IH]; intros [|j js]; [reflexivity..|]. cbn [map combine fst snd]. rewrite IH. reflexivity. }
    rewrite Em in G4. exists (concat (map (fun q => gtext (tensor_line tx tw') (pick es (fst q)) ++ snd q) (combine dones js))), h, egs.
    split; [exact E|]. split; [exact Ls|]. split; [|split; [exact G2|split; [exact G3|exact G4]]].
    rewrite G1. clear - Lj. revert js Lj. induction dones as [|d ds IH]; intros [|j js] Lj; try discriminate; [reflexivity|].
    cbn [map combine fst concat]. rewrite pick_app, IH by (cbn in Lj; lia). reflexivity.
  Qed.
End TensorVals.

(** A tensor file whose lines are followed by blanks. *)
Definition tline_bl {W} (tw : option (W -> list byte)) (p : list Z * W * list byte) : tline :=
  let l := tline_of tw (fst p) in mkTline (t_first l) (t_more l) (t_post l) (t_gap l ++ snd p).
Definition tns_bl {W} (tw : option (W -> list byte)) (h : list byte) (egs : list (list Z * W * list byte)) : tns_file :=
  mkTns h (map (tline_bl tw) egs).

Lemma tns_bl_text {W} tw h (egs : list (list Z * W * list byte)) : Forall (fun e => fst e <> []) (map fst egs) ->
  tns_text (tns_bl tw h egs) = h ++ concat (map (fun p => tensor_line dec tw (fst p) ++ snd p) egs).
Proof.
  intros HF. unfold tns_text, tns_bl. cbn [tn_head tn_lines]. rewrite map_map. do 2 f_equal. apply map_ext_in.
  intros p Hp. rewrite Forall_forall in HF. rewrite <- (tline_of_text tw (fst p)) by (apply HF; apply in_map; exact Hp).
  unfold tline_text, tline_bl, labels_text. cbn [t_first t_more t_post t_gap]. repeat rewrite <- app_assoc. reflexivity.
Qed.

Lemma tns_bl_labels {W} tw h (egs : list (list Z * W * list byte)) : map t_labels (tn_lines (tns_bl tw h egs)) = map t_labels (tn_lines (tns_of tw (map fst egs))).
Proof. unfold tns_bl, tns_of. cbn [tn_lines]. rewrite !map_map. reflexivity. Qed.
Lemma tns_bl_posts {W} tw h (egs : list (list Z * W * list byte)) : map t_post (tn_lines (tns_bl tw h egs)) = map t_post (tn_lines (tns_of tw (map fst egs))).
Proof. unfold tns_bl, tns_of. cbn [tn_lines]. rewrite !map_map. reflexivity. Qed.

Lemma tns_bl_wf {W} L k weighted tw h (egs : list (list Z * W * list byte)) : 1 <= k -> egs <> [] -> junk h -> Forall (fun q => junk (snd q)) egs ->
  Forall (tlabels_ok L k) (map fst egs) ->
  Forall (fun e => rest (post_of tw (snd e)) /\ (weighted = true -> holds_number (post_of tw (snd e)))) (map fst egs) ->
  wf_tns weighted k (tns_bl tw h egs).
Proof.
  intros Hk Hne Hh Hg HF HR. split; [destruct egs; [congruence|discriminate]|]. split; [apply junk_gap; exact Hh|]. apply wf_tlines_all.
  cbn [tns_bl tn_lines]. apply Forall_map. rewrite Forall_forall in *. intros p Hp. pose proof (in_map fst _ _ Hp) as Hi.
  destruct (HR _ Hi) as [R1 R2]. specialize (HF _ Hi). specialize (Hg _ Hp).
  destruct (tline_of_wf L k weighted tw (fst p) Hk HF R1 R2) as (H1 & H2 & H3 & H4 & H5 & H6).
  unfold tline_bl. split; [exact H1|]. cbn [t_first t_more t_post t_gap]. split; [exact H2|]. split; [exact H3|]. split; [exact H4|]. split; [exact H5|].
  assert (G0 : t_gap (tline_of tw (fst p)) = []) by (unfold tline_of; destruct (fst (fst p)); reflexivity). rewrite G0. apply junk_gap. exact Hg.
Qed.

Lemma tns_bl_plain {W} (weighted : bool) tw h (egs : list (list Z * W * list byte)) :
  Forall (fun e => if weighted then plain_weight (post_of tw (snd e)) else plain_tail (post_of tw (snd e))) (map fst egs) ->
  Forall (fun e => fst e <> []) (map fst egs) -> plain_first weighted (tns_bl tw h egs).
Proof.
  intros HP Hn. pose proof (tns_of_plain weighted tw (map fst egs) HP Hn) as H. unfold plain_first, tns_bl, tns_of in *. cbn [tn_lines] in *.
  destruct egs as [|p egs]; cbn [map] in *; [exact I|]. exact H.
Qed.
