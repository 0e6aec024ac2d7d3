(** * BinOpen: file type detection and constructors on binary files *)

From Coq Require Import String.
From Verif Require Import Base Reader Sched SchedLemmas Coo Ascii Csr SpecCsr CsrLemmas Codec Bin SpecBin BinLemmas BinSave BinLoad Graph Load.
Open Scope list_scope.

Lemma load_n_ext m n : forall d s, (forall i, i < n -> load m (d + i) = Ok (nth i s 0%Z)) -> n <= length s ->
  load_n m n d = Ok (firstn n s).
Proof.
  induction n as [|n IH]; intros d s H Hs; cbn [load_n firstn]; [reflexivity|].
  destruct s as [|b s]; [cbn in Hs; lia|]. pose proof (H 0 ltac:(lia)) as H0. rewrite Nat.add_0_r in H0. cbn [nth] in H0.
  rewrite H0. cbn [bind]. rewrite (IH (S d) s); [reflexivity| |cbn in Hs; lia].
  intros i Hi. specialize (H (S i) ltac:(lia)). cbn [nth] in H. rewrite <- H. f_equal. lia.
Qed.

Lemma at_str_spec s pg pre s' b : s = pre ++ s' ->
  at_str (mkMem s pg) (length s) (length pre) b = Ok (if length s' <=? length b then false else str_eq b (firstn (length b) s')).
Proof.
  intros E. unfold at_str. assert (EL : List.length s = List.length pre + List.length s') by (rewrite E, app_length; reflexivity).
  destruct (Nat.leb_spec (length s) (length pre + length b)), (Nat.leb_spec (length s') (length b)); try (exfalso; lia); [reflexivity|].
  rewrite (load_n_ext _ _ _ s'); [reflexivity| |apply Nat.lt_le_incl; assumption].
  intros i Hi. unfold load. cbn [bytes]. rewrite E; rewrite nth_error_app2 by lia.
  replace (length pre + i - length pre) with i by lia.
  destruct (nth_error s' i) as [c|] eqn:Ei; [|apply nth_error_None in Ei; lia].
  rewrite (nth_error_nth _ _ 0%Z Ei). reflexivity.
Qed.

Lemma open_reading pg fn s : s <> [] -> open_read pg fn 0 (Some s) = Ok (reading s pg fn []).
Proof. intros H. unfold open_read. cbn [Nat.ltb Nat.leb]. destruct s; [congruence|reflexivity]. Qed.

(** ** Detection *)
Lemma begins_dec s magic : (if length s <=? length magic then false else str_eq magic (firstn (length magic) s)) = true <-> begins s magic.
Proof.
  split.
  - destruct (Nat.leb_spec (length s) (length magic)); [discriminate|]. intros E. apply str_eq_true in E.
    destruct (skipn (length magic) s) as [|b rest] eqn:Es.
    + apply (f_equal (@List.length byte)) in Es. rewrite skipn_length in Es. cbn in Es. lia.
    + exists b, rest. rewrite <- (firstn_skipn (length magic) s), Es, <- E at 1. reflexivity.
  - intros (b & rest & ->). rewrite app_length. cbn [length].
    destruct (Nat.leb_spec (length magic + S (length rest)) (length magic)); [lia|].
    rewrite firstn_exact by reflexivity. apply str_eq_refl.
Qed.

Lemma begins_false s magic : (if length s <=? length magic then false else str_eq magic (firstn (length magic) s)) = false <-> ~ begins s magic.
Proof.
  rewrite <- begins_dec. destruct (if length s <=? length magic then false else str_eq magic (firstn (length magic) s)); split; congruence.
Qed.

Lemma guess_at s pg fn pre s' : s = pre ++ s' ->
  guess (reading s pg fn pre) =
    if (if length s' <=? length coo_magic then false else str_eq coo_magic (firstn (length coo_magic) s')) then Ok PIGO_COO_BIN else
    if (if length s' <=? length csr_magic then false else str_eq csr_magic (firstn (length csr_magic) s')) then Ok PIGO_CSR_BIN else
    if (if length s' <=? length digraph_magic then false else str_eq digraph_magic (firstn (length digraph_magic) s')) then Ok PIGO_DIGRAPH_BIN else
    if (if length s' <=? length tensor_magic then false else str_eq tensor_magic (firstn (length tensor_magic) s')) then Ok PIGO_TENSOR_BIN else
    if (if length s' <=? length pigo_magic then false else str_eq pigo_magic (firstn (length pigo_magic) s')) then Throw EError else
    if has_suffix fn ext_mtx then Ok MATRIX_MARKET else if has_suffix fn ext_graph then Ok GRAPH else Ok EDGE_LIST.
Proof.
  intros E. unfold guess, reading. cbn [rf_mem rf_fp rf_name]. unfold flen. cbn [bytes].
  rewrite !(at_str_spec s pg pre s') by exact E. cbn [bind]. reflexivity.
Qed.

(** The magic strings exclude each other. *)
Lemma begins_nth s magic i : begins s magic -> i < length magic -> nth_error s i = nth_error magic i.
Proof. intros (b & r & ->) Hi. apply nth_error_app1. exact Hi. Qed.

Lemma begins_excl s m1 m2 i : begins s m1 -> i < length m1 -> i < length m2 -> nth_error m1 i <> nth_error m2 i -> ~ begins s m2.
Proof. intros H1 Hi1 Hi2 Hne H2. apply Hne. rewrite <- (begins_nth s m1 i), <- (begins_nth s m2 i) by assumption. reflexivity. Qed.

Lemma has_suffix_spec fn ext : has_suffix fn ext = true <-> exists pre, fn = pre ++ ext.
Proof.
  unfold has_suffix. split.
  - intros H. apply andb_prop in H as [H1 H2]. apply Nat.leb_le in H1. apply str_eq_true in H2.
    exists (firstn (length fn - length ext) fn). transitivity (firstn (length fn - length ext) fn ++ skipn (length fn - length ext) fn); [symmetry; apply firstn_skipn|f_equal; symmetry; exact H2].
  - intros (pre & ->). rewrite app_length. apply andb_true_intro. split; [apply Nat.leb_le; lia|].
    rewrite skipn_exact by lia. apply str_eq_refl.
Qed.

Ltac dec_begins := repeat match goal with
  | |- context [if length ?s <=? length ?m then false else str_eq ?m (firstn (length ?m) ?s)] =>
      destruct (if length s <=? length m then false else str_eq m (firstn (length m) s)) eqn:?E; [apply begins_dec in E|apply begins_false in E]
  end.

Lemma guess_coo s pg fn pre s' : s = pre ++ s' -> begins s' coo_magic -> guess (reading s pg fn pre) = Ok PIGO_COO_BIN.
Proof. intros E H. rewrite (guess_at s pg fn pre s' E). apply begins_dec in H. rewrite H. reflexivity. Qed.

Lemma guess_csr s pg fn pre s' : s = pre ++ s' -> begins s' csr_magic -> guess (reading s pg fn pre) = Ok PIGO_CSR_BIN.
Proof.
  intros E H. rewrite (guess_at s pg fn pre s' E).
  assert (H1 : ~ begins s' coo_magic) by (eapply (begins_excl s' csr_magic coo_magic 6); cbn; auto; try lia; discriminate).
  apply begins_dec in H. apply begins_false in H1. rewrite H1, H. reflexivity.
Qed.

Lemma guess_digraph s pg fn pre s' : s = pre ++ s' -> begins s' digraph_magic -> guess (reading s pg fn pre) = Ok PIGO_DIGRAPH_BIN.
Proof.
  intros E H. rewrite (guess_at s pg fn pre s' E).
  assert (H1 : ~ begins s' coo_magic) by (eapply (begins_excl s' digraph_magic coo_magic 5); cbn; auto; try lia; discriminate).
  assert (H2 : ~ begins s' csr_magic) by (eapply (begins_excl s' digraph_magic csr_magic 5); cbn; auto; try lia; discriminate).
  apply begins_dec in H. apply begins_false in H1, H2. rewrite H1, H2, H. reflexivity.
Qed.

Lemma guess_tensor s pg fn pre s' : s = pre ++ s' -> begins s' tensor_magic -> guess (reading s pg fn pre) = Ok PIGO_TENSOR_BIN.
Proof.
  intros E H. rewrite (guess_at s pg fn pre s' E).
  assert (H1 : ~ begins s' coo_magic) by (eapply (begins_excl s' tensor_magic coo_magic 5); cbn; auto; try lia; discriminate).
  assert (H2 : ~ begins s' csr_magic) by (eapply (begins_excl s' tensor_magic csr_magic 5); cbn; auto; try lia; discriminate).
  assert (H3 : ~ begins s' digraph_magic) by (eapply (begins_excl s' tensor_magic digraph_magic 5); cbn; auto; try lia; discriminate).
  apply begins_dec in H. apply begins_false in H1, H2, H3. rewrite H1, H2, H3, H. reflexivity.
Qed.

(** The bytes of a saved object begin with its magic string. *)
Lemma layout_begins (b magic : list byte) l : map Some b = map Some magic ++ l -> l <> [] -> begins b magic.
Proof.
  intros E Hl. exists (nth (length magic) b 0%Z), (skipn (S (length magic)) b).
  assert (E1 : firstn (length magic) b = magic).
  { apply map_Some_inj. rewrite <- firstn_map, E. rewrite firstn_exact by (rewrite map_length; reflexivity). reflexivity. }
  assert (HL : length magic < length b).
  { apply (f_equal (@List.length _)) in E. rewrite app_length, !map_length in E. destruct l; [congruence|cbn in E; lia]. }
  rewrite <- E1 at 1. rewrite <- (firstn_skipn (length magic) b) at 1. f_equal.
  clear -HL. revert HL. generalize (length magic) as k. induction b as [|x b IH]; intros [|k] H; cbn in H; try (exfalso; lia); [reflexivity|].
  cbn [skipn nth]. apply IH. lia.
Qed.

(** A file made of a layout. *)
Lemma contents_of w l b : wf_data w = ones l -> l = map Some b -> contents w b.
Proof. intros E ->. unfold contents. rewrite E. unfold ones. rewrite map_map. cbn [fst]. rewrite map_id. reflexivity. Qed.

(** ** Out-of-bounds copies *)
Lemma exec_all_ub {S I} (exec : I -> S -> res S) (inv : S -> Prop) i l :
  (forall j s, inv s -> exec j s = UB \/ exists s', exec j s = Ok s' /\ inv s') ->
  (forall s, inv s -> exec i s = UB) -> In i l -> forall s, inv s -> exec_all exec l s = UB.
Proof.
  intros Hstep Hi. induction l as [|j l IH]; [intros []|]. intros [->|Hin] s Hs; cbn [exec_all].
  - rewrite (Hi s Hs). reflexivity.
  - destruct (Hstep j s Hs) as [->|(s' & -> & Hs')]; [reflexivity|]. cbn [bind]. apply IH; assumption.
Qed.

Lemma run_ub {S I} (exec : I -> S -> res S) (inv : S -> Prop) i sched ps :
  (forall j s, inv s -> exec j s = UB \/ exists s', exec j s = Ok s' /\ inv s') ->
  (forall s, inv s -> exec i s = UB) -> In i (concat ps) -> forall s, inv s -> run exec sched ps s = UB.
Proof.
  intros H1 H2 H3 s Hs. destruct (SchedMore.run_merge exec sched ps) as (q & Hm & Hq). rewrite Hq.
  apply (exec_all_ub exec inv i q H1 H2); [|exact Hs].
  apply (Permutation.Permutation_in _ (Permutation.Permutation_sym (SchedMore.merge_perm _ _ Hm)) H3).
Qed.

Lemma load_cases m k : load m k = UB \/ exists b, load m k = Ok b.
Proof. unfold load. destruct (nth_error _ _); [right; eauto|]. destruct (_ <? _); [right; eauto|left; reflexivity]. Qed.

(** Reading more bytes than the array holds. *)
Lemma par_read_overrun cap v T sched f : 1 <= T -> cap < v -> par_read cap v (T, sched) f = UB.
Proof.
  intros HT Hv. unfold par_read. cbn [fst snd].
  rewrite (run_ub (rcopy (rf_mem f) (rf_fp f)) (fun a => length a = cap) cap); [reflexivity| | | |apply fresh_length].
  - intros j s Hs. unfold rcopy. destruct (load_cases (rf_mem f) (rf_fp f + j)) as [->|(b & ->)]; cbn [bind]; [left; reflexivity|].
    unfold aset. destruct (j <? length s); [right|left; reflexivity]. eexists. split; [reflexivity|]. rewrite upd_length. exact Hs.
  - intros s Hs. unfold rcopy. destruct (load_cases (rf_mem f) (rf_fp f + cap)) as [->|(b & ->)]; cbn [bind]; [reflexivity|].
    unfold aset. destruct (Nat.ltb_spec cap (length s)); [lia|reflexivity].
  - rewrite concat_shares by exact HT. apply in_seq. lia.
Qed.

(** Reading past the mapping. *)
Lemma par_read_past cap v T sched f k : 1 <= T -> k < v -> load (rf_mem f) (rf_fp f + k) = UB -> par_read cap v (T, sched) f = UB.
Proof.
  intros HT Hk HL. unfold par_read. cbn [fst snd].
  rewrite (run_ub (rcopy (rf_mem f) (rf_fp f)) (fun _ => True) k); [reflexivity| | | |exact I].
  - intros j s _. unfold rcopy. destruct (load_cases (rf_mem f) (rf_fp f + j)) as [->|(b & ->)]; cbn [bind]; [left; reflexivity|].
    unfold aset. destruct (j <? length s); [right; eauto|left; reflexivity].
  - intros s _. unfold rcopy. rewrite HL. reflexivity.
  - rewrite concat_shares by exact HT. apply in_seq. lia.
Qed.

(** ** Headers that do not match *)
Lemma guess_begins_ft (ft : ftype) f (u : ftype) : (ft = AUTO \/ ft = u) -> u <> AUTO -> guess f = Ok u -> used f ft = Ok u.
Proof. intros [->| ->] Hu Hg; [exact Hg|]. unfold used. destruct u; congruence. Qed.

Lemma rd_str_no s pg fn pre s' b : s = pre ++ s' -> ~ begins s' b -> rd_str b (reading s pg fn pre) = Throw EError.
Proof.
  intros E H. unfold rd_str, reading. cbn [rf_mem rf_fp]. unfold flen. cbn [bytes]. rewrite (at_str_spec s pg pre s' b E).
  cbn [bind]. apply begins_false in H. rewrite H. reflexivity.
Qed.

Lemma dec_byte b : (0 <= b < 256)%Z -> cd_dec (cint u8) [b] = b.
Proof. intros H. cbn. unfold wrap. cbn [isigned u8 ibits]. change (2 ^ 8)%Z with 256%Z. rewrite Z.add_0_r || idtac. rewrite Z.mod_small by lia. lia. Qed.

(** ** No exception *)
Definition no_throw {A} (r : res A) : Prop := forall e, r <> Throw e.
Lemma bind_no_throw {A B} (x : res A) (k : A -> res B) : no_throw x -> (forall a, no_throw (k a)) -> no_throw (bind x k).
Proof. intros Hx Hk. destruct x; cbn [bind]; [apply Hk|exfalso; exact (Hx e eq_refl)|intros ? ?; discriminate|intros ? ?; discriminate]. Qed.

Lemma exec_all_nt {S I} (exec : I -> S -> res S) l : (forall i s, no_throw (exec i s)) -> forall s, no_throw (exec_all exec l s).
Proof.
  intros H. induction l as [|i l IH]; intros s; cbn [exec_all]; [intros ? ?; discriminate|]. apply bind_no_throw; auto.
Qed.
Lemma run_nt {S I} (exec : I -> S -> res S) sched ps s : (forall i s, no_throw (exec i s)) -> no_throw (run exec sched ps s).
Proof. intros H. destruct (SchedMore.run_merge exec sched ps) as (q & _ & Hq). rewrite Hq. apply exec_all_nt. exact H. Qed.

Lemma load_nt m k : no_throw (load m k).
Proof. destruct (load_cases m k) as [->|(b & ->)]; intros ? ?; discriminate. Qed.
Lemma load_n_nt m n : forall d, no_throw (load_n m n d).
Proof.
  induction n as [|n IH]; intros d; cbn [load_n]; [intros ? ?; discriminate|]. apply bind_no_throw; [apply load_nt|]. intros c.
  apply bind_no_throw; [apply IH|]. intros r ? ?; discriminate.
Qed.
Lemma rd_array_nt {V} (c : codec V) k v tm f : no_throw (rd_array c k v tm f).
Proof.
  unfold rd_array, par_read. apply bind_no_throw; [|intros [? ?] ? ?; discriminate]. apply bind_no_throw; [|intros ? ? ?; discriminate].
  apply run_nt. intros i s. unfold rcopy. apply bind_no_throw; [apply load_nt|]. intros b. unfold aset. destruct (_ <? _); intros ? ?; discriminate.
Qed.
Lemma get_weights_nt {W} (wc : option (codec W)) l m tm f : no_throw (get_weights wc l m tm f).
Proof.
  unfold get_weights. destruct wc as [c|]; [|intros ? ?; discriminate]. destruct (_ <? _); [apply rd_array_nt|intros ? ?; discriminate].
Qed.
