From Verif Require Import Base Reader Sched Coo Ascii Csr Codec Bin Graph GraphSplit Load Own SpecOwn OwnLemmas Life SpecLife.

(** ** The Matrix Market reader, split *)
Lemma read_mm_split {W} L O (wr : option (wrd W)) fl m d0 e T sched :
  read_mm L O wr fl m d0 e T sched = bind (mm_body L O wr fl m d0 e T sched) (mm_check O fl).
Proof.
  unfold read_mm, mm_body.
  destruct (at_str m e d0 mm_header) as [hdr| | |]; cbn [bind]; try reflexivity.
  destruct (negb hdr); [reflexivity|].
  repeat (rewrite bind_assoc_; apply bind_ext_; intros; repeat match goal with p : (_ * _)%type |- _ => destruct p end).
  reflexivity.
Qed.

(** ** Blocks *)
Definition news (ks : list kind) (ns : list nat) : list block :=
  map (fun kn => Live 1 (new_array (fst kn) (snd kn))) (combine ks ns).
Definition hs (i : nat) (ks : list kind) : list handle := map Some (seq i (length ks)).

Lemma news_length ks : forall ns, length ns = length ks -> length (news ks ns) = length ks.
Proof. intros. unfold news. rewrite map_length, combine_length. lia. Qed.

Lemma alloc_new_ok h ks ns : length ns = length ks ->
  alloc_new h ks ns = Ok (h ++ news ks ns, hs (length h) ks).
Proof. intros. unfold alloc_new, news, hs. now apply alloc_fresh. Qed.

Definition after_free (ks : list kind) (bs : list block) : list block :=
  map (fun kb => match fst kb with Ptr => Freed | _ => snd kb end) (combine ks bs).
Definition after_drop (ks : list kind) (bs : list block) : list block :=
  map (fun kb => match fst kb with Ptr => snd kb | _ => Freed end) (combine ks bs).

Lemma hblock_mid pre b post : hblock (pre ++ b :: post) (length pre) = b.
Proof. unfold hblock. rewrite app_nth2, Nat.sub_diag by lia. reflexivity. Qed.
Lemma lset_mid {A} (pre : list A) b post c : lset (pre ++ b :: post) (length pre) c = pre ++ c :: post.
Proof. induction pre; cbn; congruence. Qed.

Definition one (b : block) : Prop := exists cs, b = Live 1 cs.

Lemma free_all_at ks : forall bs pre post, length bs = length ks -> Forall one bs ->
  free_all (pre ++ bs ++ post) ks (hs (length pre) ks) = Ok (pre ++ after_free ks bs ++ post).
Proof.
  induction ks as [|k ks IH]; intros [|b bs] pre post Hl Hb; cbn in Hl; try lia; [reflexivity|].
  pose proof (Forall_inv Hb) as [cs ->]. apply Forall_inv_tail in Hb.
  unfold hs. cbn [length seq map free_all app].
  assert (X : free_mem k (pre ++ Live 1 cs :: bs ++ post) (Some (length pre)) =
              Ok (pre ++ (match k with Ptr => Freed | _ => Live 1 cs end) :: bs ++ post)).
  { destruct k; cbn [free_mem]; auto. unfold hfree. rewrite hblock_mid, lset_mid. reflexivity. }
  rewrite X. cbn [bind after_free combine map fst snd app].
  specialize (IH bs (pre ++ [match k with Ptr => Freed | _ => Live 1 cs end]) post ltac:(lia) Hb).
  rewrite <- !app_assoc in IH. cbn [app] in IH. rewrite app_length in IH. cbn [length] in IH.
  rewrite Nat.add_1_r in IH. exact IH.
Qed.

Lemma drop_all_at ks : forall bs pre post, length bs = length ks ->
  Forall2 (fun k b => k <> Ptr -> one b) ks bs ->
  drop_all (pre ++ bs ++ post) ks (hs (length pre) ks) = Ok (pre ++ after_drop ks bs ++ post).
Proof.
  induction ks as [|k ks IH]; intros [|b bs] pre post Hl Hb; cbn in Hl; try lia; [reflexivity|].
  inversion Hb as [|? ? ? ? H1 H2]; subst.
  unfold hs. cbn [length seq map drop_all app].
  assert (X : drop_mem k (pre ++ b :: bs ++ post) (Some (length pre)) =
              Ok (pre ++ (match k with Ptr => b | _ => Freed end) :: bs ++ post)).
  { destruct k; cbn [drop_mem]; auto; destruct H1 as [cs ->]; try discriminate;
      unfold release; rewrite hblock_mid, lset_mid; reflexivity. }
  rewrite X. cbn [bind after_drop combine map fst snd app].
  specialize (IH bs (pre ++ [match k with Ptr => b | _ => Freed end]) post ltac:(lia) H2).
  rewrite <- !app_assoc in IH. cbn [app] in IH. rewrite app_length in IH. cbn [length] in IH.
  rewrite Nat.add_1_r in IH. exact IH.
Qed.

Lemma news_one ks ns : Forall one (news ks ns).
Proof. unfold news. apply Forall_forall. intros b H. apply in_map_iff in H. destruct H as (x & <- & _). eexists; eauto. Qed.

Lemma news_one2 ks : forall ns, length ns = length ks -> Forall2 (fun k b => k <> Ptr -> one b) ks (news ks ns).
Proof.
  induction ks; intros [|n ns] H; cbn in H; try lia; constructor.
  - intros _. eexists; reflexivity.
  - apply IHks. lia.
Qed.

Lemma after_free_length ks : forall bs, length bs = length ks -> length (after_free ks bs) = length ks.
Proof. intros. unfold after_free. rewrite map_length, combine_length. lia. Qed.
Lemma after_drop_length ks : forall bs, length bs = length ks -> length (after_drop ks bs) = length ks.
Proof. intros. unfold after_drop. rewrite map_length, combine_length. lia. Qed.

Lemma after_free_one ks : forall bs, length bs = length ks -> Forall one bs ->
  Forall2 (fun k b => k <> Ptr -> one b) ks (after_free ks bs).
Proof.
  induction ks; intros [|b bs] H Hb; cbn in H; try lia; [constructor|].
  cbn. constructor; [|apply IHks; [lia|now apply Forall_inv_tail in Hb]].
  intros Ha. pose proof (Forall_inv Hb). destruct a; congruence.
Qed.

Lemma after_both ks : forall bs, length bs = length ks -> after_drop ks (after_free ks bs) = repeat Freed (length ks).
Proof. induction ks as [|[]]; intros [|b bs] H; cbn in H; try lia; [reflexivity|..]; cbn; f_equal; apply IHks; lia. Qed.

(** The blocks that survive: only raw pointers do. *)
Definition raw (ks : list kind) (ns : list nat) : list block :=
  map (fun kn => match fst kn with Ptr => Live 1 (repeat None (snd kn)) | _ => Freed end) (combine ks ns).
Lemma drop_news ks : forall ns, length ns = length ks -> after_drop ks (news ks ns) = raw ks ns.
Proof. induction ks as [|[]]; intros [|n ns] H; cbn in H; try lia; [reflexivity|..]; cbn; f_equal; apply IHks; lia. Qed.

(** ** Disposal *)
Lemma csr_dispose_at h ls os ws wgt post ns : length ns = length (csr_kinds ls os ws wgt) ->
  csr_dispose (h ++ news (csr_kinds ls os ws wgt) ns ++ post) ls os ws wgt (hs (length h) (csr_kinds ls os ws wgt)) =
  Ok (h ++ repeat Freed (length (csr_kinds ls os ws wgt)) ++ post).
Proof.
  intros H. unfold csr_dispose.
  rewrite free_all_at by (auto using news_length, news_one). cbn [bind].
  rewrite drop_all_at.
  - rewrite after_both by now apply news_length. reflexivity.
  - rewrite after_free_length; auto using news_length.
  - apply after_free_one; auto using news_length, news_one.
Qed.

Lemma coo_dispose_at h s ws wgt m post ns : length ns = length (coo_kinds s ws wgt) ->
  coo_dispose (h ++ news (coo_kinds s ws wgt) ns ++ post) s ws wgt m (hs (length h) (coo_kinds s ws wgt)) =
  Ok (h ++ (if (0 <? m)%Z then repeat Freed (length (coo_kinds s ws wgt)) else raw (coo_kinds s ws wgt) ns) ++ post).
Proof.
  intros H. unfold coo_dispose. destruct (0 <? m)%Z.
  - rewrite free_all_at by (auto using news_length, news_one). cbn [bind].
    rewrite drop_all_at.
    + rewrite after_both by now apply news_length. reflexivity.
    + rewrite after_free_length; auto using news_length.
    + apply after_free_one; auto using news_length, news_one.
  - cbn [bind]. rewrite drop_all_at; [|now apply news_length|now apply news_one2].
    rewrite drop_news by auto. reflexivity.
Qed.

Lemma coo_lens_length s ws wgt m : length (coo_lens wgt m) = length (coo_kinds s ws wgt).
Proof. destruct wgt; reflexivity. Qed.
Lemma csr_lens_length ls os ws wgt m k : length (csr_lens wgt m k) = length (csr_kinds ls os ws wgt).
Proof. destruct wgt; reflexivity. Qed.

(** ** Reading the result off *)
Definition bsize (b : block) : option nat := match b with Live _ cs => Some (length cs) | Freed => None end.

Lemma elements_mid h b post : elements (h ++ b :: post) (length h) = bsize b.
Proof. unfold elements. rewrite nth_error_app2, Nat.sub_diag by lia. destruct b; reflexivity. Qed.

Lemma elements_in h p n : elements h p = Some n -> exists b, nth_error h p = Some b /\ bsize b = Some n.
Proof. unfold elements. destruct (nth_error h p) as [b|]; [|discriminate]. intros H. exists b. split; auto; destruct b; auto. Qed.

Lemma points_news ks : forall ns pre post, length ns = length ks ->
  Forall2 (points_to (pre ++ news ks ns ++ post)) (hs (length pre) ks) ns.
Proof.
  induction ks as [|k ks IH]; intros [|n ns] pre post H; cbn in H; try lia; [constructor|].
  unfold hs. cbn [length seq map]. constructor.
  - exists (length pre). split; auto. cbn. rewrite elements_mid. cbn. f_equal.
    destruct k; cbn; now rewrite repeat_length.
  - specialize (IH ns (pre ++ [Live 1 (new_array k n)]) post ltac:(lia)).
    rewrite <- !app_assoc, app_length in IH. cbn [app length] in IH. rewrite Nat.add_1_r in IH. exact IH.
Qed.

Lemma spares_app h l : spares_old h (h ++ l).
Proof. intros p H. now apply nth_error_app1. Qed.

Lemma hs_in i ks p : In (Some p) (hs i ks) <-> i <= p < i + length ks.
Proof.
  unfold hs. rewrite in_map_iff. split.
  - intros (q & E & H). inversion E; subst. now apply in_seq in H.
  - intros H. exists p. split; auto. now apply in_seq.
Qed.

(** What is lost in [h ++ X ++ Y] when the object holds exactly [Y]. *)
Lemma lost_mid h X ks ns p n : length ns = length ks ->
  lost h (h ++ X ++ news ks ns) (hs (length h + length X) ks) p n ->
  exists i b, p = length h + i /\ nth_error X i = Some b /\ bsize b = Some n.
Proof.
  intros Hn (H1 & H2 & H3). apply elements_in in H2. destruct H2 as (b & Hb & Hs).
  rewrite hs_in in H3.
  rewrite nth_error_app2 in Hb by lia.
  assert (p - length h < length (X ++ news ks ns)) by (apply nth_error_Some; congruence).
  rewrite app_length, news_length in H by auto.
  rewrite nth_error_app1 in Hb by lia.
  exists (p - length h), b. repeat split; auto. lia.
Qed.

Lemma lost_none h X p n : lost h (h ++ X) [] p n ->
  exists i b, p = length h + i /\ nth_error X i = Some b /\ bsize b = Some n.
Proof.
  intros (H1 & H2 & _). apply elements_in in H2. destruct H2 as (b & Hb & Hs).
  rewrite nth_error_app2 in Hb by lia. exists (p - length h), b. repeat split; auto. lia.
Qed.

Lemma freed_size k i b n : nth_error (repeat Freed k) i = Some b -> bsize b = Some n -> False.
Proof. intros H. apply nth_error_In, repeat_spec in H. subst. discriminate. Qed.

Lemma raw_size ks : forall ns i b n, length ns = length ks ->
  nth_error (raw ks ns) i = Some b -> bsize b = Some n -> nth_error ks i = Some Ptr /\ nth_error ns i = Some n.
Proof.
  induction ks as [|k ks IH]; intros [|n0 ns] i b n H; cbn in H; try lia; [destruct i; discriminate|].
  destruct i as [|i]; cbn.
  - intros E Hs. inversion E; subst. destruct k; cbn in Hs; try discriminate.
    rewrite repeat_length in Hs. auto.
  - intros. eapply IH; eauto.
Qed.
