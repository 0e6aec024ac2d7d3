(** * CrashLemmas: the states of a file during a save *)

From Coq Require Import String Permutation.
From Verif Require RetypeLemmas.
From Verif Require Import Base Reader Sched SchedLemmas SchedMore CooExec Coo Ascii Csr SpecCsr CsrLemmas Codec Bin SpecBin BinLemmas BinSave BinLoad Race RaceLemmas Crash SpecReweigh SpecCut SpecCrash Cut.
Notation length := List.length.
Open Scope list_scope.

(** ** The phases are those of the model of the saves *)
Lemma run_phases_app ps qs w : run_phases (ps ++ qs) w = (w' <- run_phases ps w ;; run_phases qs w').
Proof. revert w. induction ps as [|p ps IH]; intros w; [reflexivity|]. cbn [run_phases app]. destruct (run_phase p w); cbn [bind]; auto. Qed.

Lemma run_weights {W} (wc : option (codec W)) l m_ tm w : run_phases (weight_phases wc l m_ tm) w = put_weights wc l m_ tm w.
Proof.
  unfold weight_phases, put_weights. destruct wc as [c|]; [|reflexivity]. destruct (0 <? cd_size c * m_); [|reflexivity].
  cbn [run_phases run_phase]. destruct (par_write _ _ _ _); reflexivity.
Qed.

Lemma coo_save_phases {W} L O (wc : option (codec W)) c tx ty tw :
  coo_save L O wc c tx ty tw = (w <- open_write (coo_save_size L O wc c) ;; run_phases (coo_phases L O wc c tx ty tw) w).
Proof.
  unfold coo_save, coo_phases. destruct (open_write _) as [w| | |]; cbn [bind]; try reflexivity. unfold coo_start, coo_fields, coo_arrays.
  cbn [app run_phases run_phase]. repeat (match goal with |- bind ?X _ = _ => destruct X; cbn [bind]; try reflexivity end). rewrite run_weights. reflexivity.
Qed.

Lemma csr_save_to_phases {W} L O (wc : option (codec W)) c n1 t_o te tw w : plus1 L (cs_n c) = Ok n1 ->
  csr_save_to L O wc c t_o te tw w = run_phases (csr_phases L O wc c n1 t_o te tw) w.
Proof.
  intros E. unfold csr_save_to, csr_phases. rewrite E. unfold csr_start, csr_fields, csr_arrays.
  cbn [app run_phases run_phase]. repeat (match goal with |- bind ?X _ = _ => destruct X; cbn [bind]; try reflexivity end). rewrite run_weights. reflexivity.
Qed.

Lemma csr_save_phases {W} L O (wc : option (codec W)) c n1 t_o te tw : plus1 L (cs_n c) = Ok n1 ->
  csr_save L O wc c t_o te tw = (n <- csr_save_size L O wc c ;; w <- open_write n ;; run_phases (csr_phases L O wc c n1 t_o te tw) w).
Proof.
  intros E. unfold csr_save. destruct (csr_save_size L O wc c); cbn [bind]; try reflexivity. destruct (open_write _); cbn [bind]; try reflexivity.
  apply csr_save_to_phases. exact E.
Qed.

Lemma digraph_save_phases {W} L O (wc : option (codec W)) i o n1 n2 t1 t2 t3 t4 t5 t6 : plus1 L (cs_n i) = Ok n1 -> plus1 L (cs_n o) = Ok n2 ->
  digraph_save L O wc (i, o) t1 t2 t3 t4 t5 t6 =
    (s1 <- csr_save_size L O wc i ;; s2 <- csr_save_size L O wc o ;; w <- open_write (length digraph_magic + s1 + s2) ;;
     run_phases (digraph_phases L O wc (i, o) n1 n2 t1 t2 t3 t4 t5 t6) w).
Proof.
  intros E1 E2. unfold digraph_save, digraph_phases. cbn [fst snd].
  destruct (csr_save_size L O wc i); cbn [bind]; try reflexivity. destruct (csr_save_size L O wc o); cbn [bind]; try reflexivity.
  destruct (open_write _); cbn [bind]; try reflexivity.
  cbn [run_phases run_phase]. destruct (put_bytes _ _); cbn [bind]; try reflexivity. rewrite run_phases_app, (csr_save_to_phases L O wc i n1) by exact E1.
  destruct (run_phases _ _); cbn [bind]; try reflexivity. apply csr_save_to_phases. exact E2.
Qed.

Lemma tensor_save_phases {W} L O (wc : option (codec W)) t tc tw :
  tensor_save L O wc t tc tw = (w <- open_write (tensor_save_size L O wc t) ;; run_phases (tensor_phases L O wc t tc tw) w).
Proof.
  unfold tensor_save, tensor_phases. destruct (open_write _) as [w| | |]; cbn [bind]; try reflexivity. unfold tensor_start, tensor_fields, tensor_arrays.
  cbn [app run_phases run_phase].
  repeat (match goal with |- bind (put_bytes _ _) _ = _ => destruct (put_bytes _ _); cbn [bind]; try reflexivity end).
  destruct wc as [cd|]; [|cbn [put_bytes bind]]; repeat (match goal with |- bind ?X _ = _ => destruct X; cbn [bind]; try reflexivity end); rewrite run_weights; reflexivity.
Qed.

(** ** The stores of a phase *)
Definition image (p : phase) : list (option byte) := match p with Seq bs => bs | Par src _ _ => src end.
Definition proper (p : phase) : Prop := match p with Seq _ => True | Par src v tm => v = length src /\ 1 <= fst tm end.

Lemma par_positions v T sched : 1 <= T -> Permutation (map snd (trace sched (shares v T))) (seq 0 v).
Proof.
  intros HT. rewrite (merge_perm _ _ (trace_merge sched (shares v T))). rewrite concat_shares by exact HT. reflexivity.
Qed.

Lemma stores_in fp p i b : proper p -> In (i, b) (stores fp p) -> fp <= i /\ nth_error (image p) (i - fp) = Some b.
Proof.
  destruct p as [bs|src v [T sched]]; cbn [stores image proper]; intros HP H.
  - clear HP. revert fp H. induction bs as [|x bs IH]; intros fp H; [destruct H|]. cbn [List.length seq combine] in H. destruct H as [H|H].
    + injection H as -> ->. rewrite Nat.sub_diag. split; [lia|reflexivity].
    + destruct (IH (S fp) H) as (H1 & H2). split; [lia|]. replace (i - fp) with (S (i - S fp)) by lia. exact H2.
  - destruct HP as (-> & HT). cbn [fst] in HT. apply in_map_iff in H as (k & E & Hk). injection E as <- <-. split; [lia|].
    apply (Permutation_in _ (par_positions (length src) T sched HT)) in Hk. apply in_seq in Hk. replace (fp + k - fp) with k by lia. apply nth_error_nth'. lia.
Qed.

Lemma stores_all fp p i : proper p -> fp <= i -> i < fp + psize p -> In i (map fst (stores fp p)).
Proof.
  destruct p as [bs|src v [T sched]]; cbn [stores psize proper]; intros HP H1 H2.
  - replace (map fst (combine (seq fp (length bs)) bs)) with (seq fp (length bs)); [apply in_seq; lia|].
    clear. revert fp. induction bs as [|x bs IH]; intros fp; [reflexivity|]. cbn [List.length seq combine map fst]. rewrite <- IH. reflexivity.
  - destruct HP as (-> & HT). cbn [fst snd] in *. rewrite map_map. cbn [fst]. apply in_map_iff. exists (i - fp). split; [lia|].
    apply (Permutation_in _ (Permutation_sym (par_positions (length src) T sched HT))). apply in_seq. lia.
Qed.

Lemma stores_length fp p : proper p -> length (stores fp p) = psize p.
Proof.
  destruct p as [bs|src v [T sched]]; cbn [stores psize proper]; intros HP.
  - rewrite combine_length, seq_length. apply Nat.min_id.
  - destruct HP as (-> & HT). cbn [fst snd] in *. rewrite map_length, (Permutation_length (par_positions (length src) T sched HT)), seq_length. reflexivity.
Qed.

Definition psizes (ps : list phase) : nat := sum_nat (map psize ps).

Lemma psize_image p : proper p -> psize p = length (image p).
Proof. destruct p; cbn; [reflexivity|intros (-> & _); reflexivity]. Qed.

Lemma all_stores_in ps : forall fp i b, Forall proper ps -> In (i, b) (all_stores fp ps) ->
  fp <= i /\ nth_error (flat_map image ps) (i - fp) = Some b.
Proof.
  induction ps as [|p ps IH]; intros fp i b HF H; [destruct H|]. cbn [all_stores flat_map] in *. pose proof (Forall_inv HF) as Hp.
  apply in_app_or in H as [H|H].
  - destruct (stores_in _ _ _ _ Hp H) as (H1 & H2). split; [exact H1|]. rewrite nth_error_app1; [exact H2|]. apply nth_error_Some. congruence.
  - destruct (IH _ _ _ (Forall_inv_tail HF) H) as (H1 & H2). split; [lia|]. rewrite (psize_image p Hp) in *. rewrite nth_error_app2 by lia.
    rewrite <- H2. f_equal. lia.
Qed.

Lemma all_stores_app ps : forall qs fp, all_stores fp (ps ++ qs) = all_stores fp ps ++ all_stores (fp + psizes ps) qs.
Proof.
  induction ps as [|p ps IH]; intros qs fp; cbn [app all_stores].
  - unfold psizes. cbn. rewrite Nat.add_0_r. reflexivity.
  - rewrite IH, <- app_assoc. do 3 f_equal. unfold psizes. cbn [map]. unfold sum_nat. cbn [fold_right]. lia.
Qed.

Lemma all_stores_all ps : forall fp i, Forall proper ps -> fp <= i -> i < fp + psizes ps -> In i (map fst (all_stores fp ps)).
Proof.
  induction ps as [|p ps IH]; intros fp i HF H1 H2; [unfold psizes in H2; cbn in H2; lia|]. cbn [all_stores]. rewrite map_app. apply in_or_app.
  unfold psizes in H2. cbn [map] in H2. unfold sum_nat in H2. cbn [fold_right] in H2.
  destruct (Nat.lt_ge_cases i (fp + psize p)) as [H|H]; [left; apply stores_all; [exact (Forall_inv HF)|lia..]|].
  right. apply IH; [exact (Forall_inv_tail HF)|lia|]. unfold psizes, sum_nat. lia.
Qed.

Lemma all_stores_length ps : forall fp, Forall proper ps -> length (all_stores fp ps) = psizes ps.
Proof.
  induction ps as [|p ps IH]; intros fp HF; [reflexivity|]. cbn [all_stores]. rewrite app_length, stores_length by exact (Forall_inv HF).
  rewrite IH by exact (Forall_inv_tail HF). unfold psizes. reflexivity.
Qed.

(** ** Executing stores *)
Lemma exec_stores lay : forall l f, length f = length lay -> (forall i b, In (i, b) l -> nth_error lay i = Some b) ->
  exists f', exec_all fput l f = Ok f' /\ length f' = length f /\
    forall i, (In i (map fst l) -> option_map fst (nth_error f' i) = nth_error lay i) /\ (~ In i (map fst l) -> nth_error f' i = nth_error f i).
Proof.
  induction l as [|[j b] l IH]; intros f Hf Hl.
  - exists f. split; [reflexivity|]. split; [reflexivity|]. intros i. split; [intros []|reflexivity].
  - cbn [exec_all]. unfold fput at 1. cbn [fst snd]. unfold fstore.
    pose proof (Hl j b (or_introl eq_refl)) as Hj. assert (Hlt : j < length f) by (rewrite Hf; apply nth_error_Some; congruence).
    destruct (nth_error f j) as [[b0 k]|] eqn:Ej; [|apply nth_error_None in Ej; lia]. cbn [bind].
    destruct (IH (upd j (b, S k) f)) as (f' & E & Lf & H); [rewrite upd_length; exact Hf|intros i b' Hi; apply Hl; right; exact Hi|].
    rewrite upd_length in Lf. exists f'. split; [exact E|]. split; [exact Lf|]. intros i. destruct (H i) as (H1 & H2). cbn [map fst In]. split.
    + intros [<-|Hi]; [|auto]. destruct (in_dec Nat.eq_dec j (map fst l)) as [Hi|Hn]; [auto|]. rewrite (H2 Hn), nth_error_upd_eq by exact Hlt. cbn. symmetry. exact Hj.
    + intros Hn. rewrite H2 by tauto. apply nth_error_upd_ne. intros ->. tauto.
Qed.

(** The stores of the phases are what the phases do. *)
Lemma exec_all_app {S I} (exec : I -> S -> res S) l l' s : exec_all exec (l ++ l') s = (s' <- exec_all exec l s ;; exec_all exec l' s').
Proof. revert s. induction l as [|i l IH]; intros s; [reflexivity|]. cbn [app exec_all]. destruct (exec i s); cbn [bind]; auto. Qed.

Lemma phase_stores p w : proper p ->
  run_phase p w = (f <- exec_all fput (stores (wf_fp w) p) (wf_data w) ;; Ok (mkWfile f (wf_fp w + psize p))).
Proof.
  destruct p as [bs|src v [T sched]]; cbn [run_phase stores psize proper]; intros HP.
  - destruct w as [f fp]. cbn [wf_fp wf_data]. clear HP. revert f fp. induction bs as [|b bs IH]; intros f fp.
    + cbn. rewrite Nat.add_0_r. reflexivity.
    + cbn [put_bytes List.length seq combine exec_all]. unfold fput at 1. cbn [fst snd wf_fp wf_data].
      destruct (fstore fp b f) as [f'| | |]; cbn [bind]; try reflexivity. rewrite IH. replace (fp + S (length bs)) with (S fp + length bs) by lia. reflexivity.
  - destruct HP as (-> & HT). unfold par_write. cbn [fst snd] in *. rewrite run_trace.
    assert (HI : forall k, In k (map snd (trace sched (shares (length src) T))) -> k < length src).
    { intros k Hk. apply (Permutation_in _ (par_positions (length src) T sched HT)) in Hk. apply in_seq in Hk. lia. }
    assert (E : forall l f, (forall k, In k l -> k < length src) ->
      exec_all (wcopy src (wf_fp w)) l f = exec_all fput (map (fun k => (wf_fp w + k, nth k src None)) l) f).
    { induction l as [|k l IH]; intros f Hl; [reflexivity|]. cbn [exec_all map]. unfold wcopy at 1, aget, fput at 1. cbn [fst snd].
      rewrite (nth_error_nth' src None) by (apply Hl; left; reflexivity). cbn [bind].
      destruct (fstore _ _ _); cbn [bind]; try reflexivity. apply IH. intros k' Hk'. apply Hl. right. exact Hk'. }
    rewrite E by exact HI. reflexivity.
Qed.

Lemma phases_stores ps : forall w, Forall proper ps ->
  run_phases ps w = (f <- exec_all fput (all_stores (wf_fp w) ps) (wf_data w) ;; Ok (mkWfile f (wf_fp w + psizes ps))).
Proof.
  induction ps as [|p ps IH]; intros w HF.
  - destruct w as [f fp]. cbn. unfold psizes. cbn. rewrite Nat.add_0_r. reflexivity.
  - cbn [run_phases all_stores]. rewrite (phase_stores p w (Forall_inv HF)), exec_all_app.
    destruct (exec_all fput (stores (wf_fp w) p) (wf_data w)) as [f| | |]; cbn [bind]; try reflexivity.
    rewrite IH by exact (Forall_inv_tail HF). cbn [wf_fp wf_data]. destruct (exec_all fput _ f); cbn [bind]; try reflexivity.
    unfold psizes. cbn [map]. unfold sum_nat. cbn [fold_right]. do 2 f_equal. lia.
Qed.

(** ** The file after some stores *)
Lemma nth_error_ext {A} : forall (a b : list A), (forall i, nth_error a i = nth_error b i) -> a = b.
Proof.
  induction a as [|x a IH]; intros [|y b] H; [reflexivity|specialize (H 0); discriminate..|].
  pose proof (H 0) as H0. injection H0 as ->. f_equal. apply IH. intros i. exact (H (S i)).
Qed.

Lemma psizes_image ps : Forall proper ps -> psizes ps = length (flat_map image ps).
Proof.
  induction 1 as [|p ps Hp _ IH]; [reflexivity|]. cbn [flat_map]. rewrite app_length, <- IH, <- (psize_image p Hp). reflexivity.
Qed.

Lemma open_created n : 0 < n -> open_write n = Ok (mkWfile (map (fun b => (Some b, 0)) (created n)) 0).
Proof. destruct n as [|k]; [lia|]. intros _. reflexivity. Qed.

Lemma created_length n : length (created n) = n.
Proof. destruct n as [|k]; [reflexivity|]. cbn [created]. rewrite app_length, repeat_length. cbn. lia. Qed.

Definition is_seq (p : phase) : Prop := match p with Seq _ => True | Par _ _ _ => False end.

Lemma seq_stores ps : forall fp, Forall is_seq ps -> map fst (all_stores fp ps) = seq fp (psizes ps).
Proof.
  induction ps as [|p ps IH]; intros fp HF; [reflexivity|]. cbn [all_stores]. rewrite map_app, IH by exact (Forall_inv_tail HF).
  unfold psizes at 2. cbn [map]. unfold sum_nat. cbn [fold_right]. rewrite seq_app. f_equal.
  destruct p as [bs|]; [|destruct (Forall_inv HF)]. cbn [stores psize]. clear. revert fp.
  induction bs as [|x bs IH]; intros fp; [reflexivity|]. cbn [List.length seq combine map fst]. rewrite IH. reflexivity.
Qed.

Lemma firstn_seq k : forall p n, k <= n -> firstn k (seq p n) = seq p k.
Proof. induction k as [|k IH]; intros p n H; [reflexivity|]. destruct n as [|n]; [lia|]. cbn [seq firstn]. f_equal. apply IH. lia. Qed.

Lemma interrupted_ok ps b k : Forall proper ps -> flat_map image ps = map Some b -> 0 < length b ->
  exists w s, interrupted (length b) ps k = Ok w /\ contents w s /\ partly_stored b s /\
    (forall ps1 ps2, ps = ps1 ++ ps2 -> psizes ps1 <= k -> in_place b s 0 (psizes ps1)) /\
    (forall ps1 ps2, ps = ps1 ++ ps2 -> Forall is_seq ps1 -> k <= psizes ps1 ->
      in_place b s 0 k /\ forall i, k <= i -> nth_error s i = nth_error (created (length b)) i).
Proof.
  intros HF EI Hb. unfold interrupted. rewrite open_created by exact Hb. cbn [bind wf_fp wf_data].
  set (l := firstn k (all_stores 0 ps)).
  assert (Hin : forall i x, In (i, x) l -> nth_error (map (@Some byte) b) i = Some x).
  { intros i x H. assert (H' : In (i, x) (all_stores 0 ps)) by (rewrite <- (firstn_skipn k (all_stores 0 ps)); apply in_or_app; left; exact H).
    destruct (all_stores_in _ _ _ _ HF H') as (_ & H2). rewrite Nat.sub_0_r, EI in H2. exact H2. }
  set (f0 := map (fun x : byte => (Some x, 0)) (created (length b))).
  assert (L0 : length f0 = length (map (@Some byte) b)) by (unfold f0; rewrite !map_length, created_length; reflexivity).
  destruct (exec_stores (map Some b) l f0 L0 Hin) as (f' & E & Lf & H). rewrite E. cbn [bind].
  set (s := map (fun c : fcell => match fst c with Some x => x | None => 0%Z end) f').
  assert (HC : map fst f' = map Some s).
  { apply nth_error_ext. intros i. unfold s. rewrite map_map, !nth_error_map. destruct (H i) as (H1 & H2).
    unfold fcell in *. destruct (nth_error f' i) as [[o q]|] eqn:Ei; cbn [option_map fst]; [|reflexivity].
    destruct (in_dec Nat.eq_dec i (map fst l)) as [Hi|Hn].
    - specialize (H1 Hi). cbn [option_map fst] in H1. rewrite nth_error_map in H1.
      destruct (nth_error b i); [|discriminate]. cbn in H1. injection H1 as ->. reflexivity.
    - specialize (H2 Hn). unfold f0 in H2. rewrite nth_error_map in H2. destruct (nth_error (created (length b)) i); [|discriminate].
      cbn in H2. injection H2 as -> _. reflexivity. }
  assert (HS : forall i, (In i (map fst l) -> nth_error s i = nth_error b i) /\ (~ In i (map fst l) -> nth_error s i = nth_error (created (length b)) i)).
  { intros i. assert (Ei : option_map Some (nth_error s i) = option_map fst (nth_error f' i)) by (pose proof (f_equal (fun z => nth_error z i) HC) as X; cbn beta in X; rewrite !nth_error_map in X; symmetry; exact X).
    destruct (H i) as (H1 & H2). split; intros Hi.
    - rewrite (H1 Hi), nth_error_map in Ei. destruct (nth_error s i), (nth_error b i); cbn in Ei; congruence.
    - rewrite (H2 Hi) in Ei. unfold f0 in Ei. rewrite nth_error_map in Ei. destruct (nth_error s i), (nth_error (created (length b)) i); cbn in Ei; congruence. }
  exists (mkWfile f' 0), s. split; [reflexivity|]. split; [exact HC|].
  assert (Ls : length s = length b) by (unfold s; rewrite map_length, Lf; unfold f0; rewrite map_length; apply created_length).
  split; [split; [exact Ls|]; intros i; destruct (in_dec Nat.eq_dec i (map fst l)) as [Hi|Hn]; [left; apply HS; exact Hi|right; apply HS; exact Hn]|].
  split.
  - intros ps1 ps2 -> Hk i _ Hi. apply HS. unfold l. rewrite all_stores_app. apply Forall_app in HF as (HF1 & _).
    rewrite firstn_app, firstn_all2 by (rewrite all_stores_length by exact HF1; exact Hk). rewrite map_app. apply in_or_app. left.
    apply all_stores_all; [exact HF1|lia..].
  - intros ps1 ps2 -> HS1 Hk. assert (EL : map fst l = seq 0 k).
    { unfold l. rewrite all_stores_app, <- firstn_map, map_app, (seq_stores ps1 0 HS1), firstn_app, seq_length.
      replace (k - psizes ps1) with 0 by lia. rewrite firstn_O, app_nil_r. apply firstn_seq. exact Hk. }
    split; intros i.
    + intros _ Hi. apply HS. rewrite EL. apply in_seq. lia.
    + intros Hi. apply HS. rewrite EL, in_seq. lia.
Qed.

(** ** Windows of files that are stored in part *)
Lemma nth_skipn {A} (l : list A) p i : nth_error (skipn p l) i = nth_error l (p + i).
Proof. revert l. induction p as [|p IH]; intros l; [reflexivity|]. destruct l as [|x l]; [destruct i; reflexivity|]. exact (IH l). Qed.

Lemma nth_window {A} (l : list A) sz p i : i < sz -> nth_error (firstn sz (skipn p l)) i = nth_error l (p + i).
Proof.
  intros Hi. rewrite <- nth_skipn. generalize (skipn p l) as q. revert i Hi. induction sz as [|sz IH]; intros i Hi q; [lia|].
  destruct q as [|x q]; [destruct i; reflexivity|]. destruct i as [|i]; [reflexivity|]. cbn [firstn nth_error]. apply IH. lia.
Qed.

Lemma window_in_place b s sz p : in_place b s p (p + sz) -> firstn sz (skipn p s) = firstn sz (skipn p b).
Proof.
  intros H. apply nth_error_ext. intros i. destruct (Nat.lt_ge_cases i sz) as [Hi|Hi].
  - rewrite !nth_window by exact Hi. apply H; lia.
  - rewrite !(proj2 (nth_error_None _ _)); [reflexivity|rewrite firstn_length; lia..].
Qed.

Lemma keeps_stored_array {V} (c : codec V) n p b s : keeps_stored (cd_size c) p b s (array_at c n p b) (array_at c n p s).
Proof.
  split; [rewrite !array_at_length; reflexivity|]. intros i Hi. destruct (Nat.lt_ge_cases i n) as [H|H].
  - rewrite !array_at_nth by exact H. rewrite (window_in_place b s) by (replace (p + cd_size c * i + cd_size c) with (p + cd_size c * S i) by lia; exact Hi). reflexivity.
  - rewrite !(proj2 (nth_error_None _ _)); [reflexivity|rewrite array_at_length; exact H..].
Qed.

Lemma created_zero n i : S i < n -> nth_error (created n) i = Some 0%Z.
Proof. destruct n as [|k]; [lia|]. intros Hi. cbn [created]. rewrite nth_error_app1 by (rewrite repeat_length; lia). apply nth_error_repeat. lia. Qed.

Lemma Forall2_nth {A B} (R : A -> B -> Prop) : forall a b, length a = length b ->
  (forall i x y, nth_error a i = Some x -> nth_error b i = Some y -> R x y) -> Forall2 R a b.
Proof.
  induction a as [|x a IH]; intros [|y b] HL H; try discriminate; constructor.
  - exact (H 0 x y eq_refl eq_refl).
  - apply IH; [cbn in HL; lia|]. intros i. exact (H (S i)).
Qed.

Lemma window_partly (b s : list byte) sz p : partly_stored b s -> p + sz < length b ->
  Forall2 (fun x y => x = y \/ x = 0%Z) (firstn sz (skipn p s)) (firstn sz (skipn p b)).
Proof.
  intros (HL & H) Hp. apply Forall2_nth; [rewrite !firstn_length, !skipn_length; lia|].
  intros i x y Hx Hy. assert (Hi : i < sz) by (destruct (Nat.lt_ge_cases i sz) as [X|X]; [exact X|]; assert (Z1 : nth_error (firstn sz (skipn p s)) i = None) by (apply nth_error_None; rewrite firstn_length; lia); change (nth_error (firstn sz (skipn p s)) i = Some x) in Hx; rewrite Z1 in Hx; discriminate).
  change (nth_error (firstn sz (skipn p s)) i = Some x) in Hx. change (nth_error (firstn sz (skipn p b)) i = Some y) in Hy.
  rewrite nth_window in Hx, Hy by exact Hi. destruct (H (p + i)) as [E|E]; [left; congruence|right].
  rewrite created_zero in E by lia. rewrite Hx in E. injection E as ->. reflexivity.
Qed.

(** ** Integers of which some bytes are missing *)
Definition isbyte (x : Z) : Prop := (0 <= x < 256)%Z.

Lemma le_bytes n : forall z, Forall isbyte (le n z).
Proof. induction n as [|n IH]; intros z; [constructor|]. cbn [le]. constructor; [apply Z.mod_pos_bound; lia|apply IH]. Qed.

Lemma unle_range bs : Forall isbyte bs -> (0 <= unle bs < 256 ^ Z.of_nat (length bs))%Z.
Proof.
  induction 1 as [|x bs Hx _ IH]; [cbn; lia|]. unfold unle in *. cbn [fold_right List.length]. rewrite Nat2Z.inj_succ, Z.pow_succ_r by lia. unfold isbyte in Hx. lia.
Qed.

Lemma le_unle bs : Forall isbyte bs -> le (length bs) (unle bs) = bs.
Proof.
  induction 1 as [|x bs Hx _ IH]; [reflexivity|]. unfold unle in *. cbn [fold_right List.length le]. unfold isbyte in Hx.
  set (u := fold_right (fun b a => (b + 256 * a)%Z) 0%Z bs) in *.
  rewrite (Z.mul_comm 256 u), Z.mod_add, Z.div_add by lia. rewrite Z.mod_small, Z.div_small by lia. rewrite Z.add_0_l, IH. reflexivity.
Qed.

Lemma le_mod n : forall z z', (z mod 256 ^ Z.of_nat n = z' mod 256 ^ Z.of_nat n)%Z -> le n z = le n z'.
Proof.
  intros z z' E. rewrite <- (le_unle (le n z)) by apply le_bytes. rewrite <- (le_unle (le n z')) by apply le_bytes.
  rewrite !unle_le, !le_length, E. reflexivity.
Qed.

Lemma wrap_congr t z : is_ity t -> (wrap t z mod 2 ^ ibits t = z mod 2 ^ ibits t)%Z /\ inrange t (wrap t z) = true.
Proof.
  intros Ht. destruct (RetypeLemmas.wrap_mod t z Ht) as (R & q & E). split.
  - rewrite E. apply Z.mod_add. clear - Ht. unfold is_ity in Ht. cbn [In] in Ht. repeat (destruct Ht as [<-|Ht]; [vm_compute; discriminate|]). destruct Ht.
  - unfold inrange. apply andb_true_intro. split; apply Z.leb_le; lia.
Qed.

Lemma enc_dec_bytes t bs : is_ity t -> length bs = isize t -> Forall isbyte bs ->
  cd_enc (cint t) (cd_dec (cint t) bs) = bs /\ inrange t (cd_dec (cint t) bs) = true.
Proof.
  intros Ht Hl HB. cbn [cint cd_enc cd_dec]. destruct (wrap_congr t (unle bs) Ht) as (E & R). split; [|exact R].
  rewrite <- (le_unle bs HB) at 2. rewrite Hl. apply le_mod. rewrite isize_pow by exact Ht. exact E.
Qed.

Lemma unle_less : forall a b, Forall2 (fun x y => x = y \/ x = 0%Z) a b -> Forall isbyte b -> (0 <= unle a <= unle b)%Z /\ Forall isbyte a.
Proof.
  induction 1 as [|x y a b Hxy _ IH]; intros HB; [cbn; split; [lia|constructor]|].
  pose proof (Forall_inv HB) as Hy. destruct (IH (Forall_inv_tail HB)) as (H1 & H2). unfold isbyte in Hy. unfold unle in *. cbn [fold_right].
  split; [destruct Hxy as [->| ->]; lia|]. constructor; [unfold isbyte; destruct Hxy as [->| ->]; lia|exact H2].
Qed.

Lemma Forall2_len {A B} (R : A -> B -> Prop) a b : Forall2 R a b -> length a = length b.
Proof. induction 1; cbn; congruence. Qed.

(** A number whose bytes are in part still zero. *)
Lemma partial_int t z bs : is_ity t -> inrange t z = true -> Forall2 (fun x y => x = y \/ x = 0%Z) bs (cd_enc (cint t) z) ->
  exists z', bs = cd_enc (cint t) z' /\ inrange t z' = true /\ ((0 <= z)%Z -> (0 <= z' <= z)%Z).
Proof.
  intros Ht Hz H. cbn [cint cd_enc] in H. destruct (unle_less _ _ H (le_bytes _ _)) as (H1 & H2).
  assert (Hl : length bs = isize t) by (rewrite (Forall2_len _ _ _ H); apply le_length).
  destruct (enc_dec_bytes t bs Ht Hl H2) as (E1 & E2). exists (cd_dec (cint t) bs). split; [symmetry; exact E1|]. split; [exact E2|].
  intros H0. rewrite unle_le, isize_pow in H1 by exact Ht. cbn [cint cd_dec].
  assert (Hmax : (z <= imax t)%Z) by (unfold inrange in Hz; apply andb_prop in Hz as [_ Hz]; apply Z.leb_le; exact Hz).
  assert (Hp : (imax t < 2 ^ ibits t)%Z) by (clear - Ht; unfold is_ity in Ht; cbn [In] in Ht; repeat (destruct Ht as [<-|Ht]; [reflexivity|]); destruct Ht).
  rewrite Z.mod_small in H1 by lia. rewrite wrap_small by (auto; lia). exact H1.
Qed.
