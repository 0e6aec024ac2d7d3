(** * ElLarge: edge lists with labels up to the largest one of the label type *)

From Verif Require Import Base Reader Sched SchedLemmas Spec ReaderLemmas Coo CooLemmas CooExec CooSplit CooMain WeightLemmas ElSpec ElFinal ElThms.

Section Main.
  Context {W : Type}.
  Variables L O : ity.
  Variable wr : option (wrd W).
  Variable fl : flags.
  Variable f : el_file.
  Variable ws : list W.
  Variable pg : nat.
  Let ps := combine (el_lines f) ws.
  Let m := mkMem (el_text f) pg.
  Let es := stored fl (triples f ws).
  Let ks := counted fl (triples f ws).

  Hypothesis HL : is_ity L.
  Hypothesis HO : is_ity O.
  Hypothesis Hwf : wf_el f.
  Hypothesis Hlen : length ws = length (el_lines f).
  Hypothesis Hfit : labels_fit (imax L) f.
  Hypothesis Hcnt : (Z.of_nat (length es) <= imax O)%Z.
  Hypothesis Hpg : off_page pg (el_text f).
  Hypothesis Hwe : owend wr.
  Hypothesis Hwok : Forall2 (owok wr) (map l_post (el_lines f)) ws.
  Hypothesis Hdrop : wr = None \/ Forall (keeps fl) (triples f ws).
  Variable T : nat.
  Hypothesis HT : 1 <= T.

  Lemma large_main sched : read_el L O wr fl m 0 (flen m) T sched =
    (nr <- arith L (max_of (map (fun e => fst (fst e)) ks) + 1)%Z ;;
     nc <- arith L (max_of (map (fun e => snd (fst e)) ks) + 1)%Z ;;
     Ok (mkCoo (map (fun e => Some (fst (fst e))) es) (map (fun e => Some (snd (fst e))) es)
          (match wr with None => [] | Some _ => map (fun e => Some (snd e)) es end)
          (Some (Z.max nr nc)) (Some nr) (Some nc) (Z.of_nat (length es)))).
  Proof.
    assert (Ef : map fst ps = el_lines f) by (apply (ps_fst f ws Hlen)).
    assert (Ee : map ent ps = triples f ws) by (apply (ps_ent f ws)).
    assert (Et : el_text f = el_head f ++ text (map fst ps)) by (apply (ps_text f ws Hlen)).
    assert (Hh : has m 0 (el_head f ++ text (map fst ps))) by (rewrite <- Et; apply (has_all m)).
    assert (He : 0 + length (el_head f ++ text (map fst ps)) = flen m) by (rewrite <- Et; reflexivity).
    assert (Hg : gap (isnil (map fst ps)) (el_head f)) by (rewrite Ef; apply Hwf).
    assert (Hw : wf_lines (map fst ps)) by (rewrite Ef; apply Hwf).
    assert (Hf : Forall (fun p => dval (l_x (fst p)) <= imax L /\ dval (l_y (fst p)) <= imax L)%Z ps).
    { unfold labels_fit, el_pairs in Hfit. rewrite <- Ef in Hfit. rewrite Forall_map, Forall_map in Hfit. exact Hfit. }
    assert (Ho : Forall (fun p => owok wr (l_post (fst p)) (snd p)) ps) by (apply (wok_ps wr f ws Hwok)).
    pose proof (slack_off_page _ _ Hpg) as Hs.
    assert (Hd : wr = None \/ forall t, t < T -> lastdrop fl (chunk (el_head f) ps T t) = false).
    { destruct Hdrop as [H|H]; [left; exact H|right]. intros t Ht. apply lastdrop_all. rewrite <- Ee in H. rewrite Forall_map in H.
      unfold chunk, slice. rewrite Forall_forall in *. intros p Hin. apply drop_keeps, H.
      rewrite <- (firstn_skipn (K (el_head f) ps T t) ps). apply in_or_app; right.
      rewrite <- (firstn_skipn (K (el_head f) ps T (S t) - K (el_head f) ps T t) (skipn _ ps)). apply in_or_app; left; exact Hin. }
    assert (Eo : out fl ps = es) by (unfold out, es; rewrite Ee; reflexivity).
    unfold read_el. rewrite (pass1_ok L HL wr Hwe fl m Hs 0 (el_head f) ps Hh He Hg Hw Hf Ho T HT). cbn [bind].
    rewrite (counts_sum fl m 0 (el_head f) ps He T HT).
    assert (El : total fl ps = length es) by (rewrite <- Eo; reflexivity). rewrite El.
    pose proof (ity_facts O HO) as (HO1 & HO2 & _). rewrite wrap_in by (auto; lia).
    unfold coo_alloc. destruct (Z.ltb_spec (Z.of_nat (length es)) 0); [lia|]. cbn [bind]. rewrite Nat2Z.id.
    rewrite (pass2_ok L HL wr Hwe fl m Hs 0 (el_head f) ps Hh He Hw Hf Ho T HT). cbn [bind]. rewrite !map_map. cbn [fst snd].
    change (map (fun x => prog wr fl m 0 (el_head f) ps T x) (seq 0 T)) with (map (prog wr fl m 0 (el_head f) ps T) (seq 0 T)).
    pose proof (run_progs wr Hwe fl m 0 (el_head f) ps He Ho T HT Hd sched) as Hr. rewrite Eo in Hr. rewrite Hr. cbn [bind].
    rewrite (max_row_ok L HL fl m 0 (el_head f) ps He T HT), (max_col_ok L HL fl m 0 (el_head f) ps He T HT).
    unfold kents. rewrite Ee. fold (counted fl (triples f ws)). fold ks.
    destruct (arith L (max_of (map (fun e => fst (fst e)) ks) + 1)) as [nr| | |]; cbn [bind]; try reflexivity.
    destruct (arith L (max_of (map (fun e => snd (fst e)) ks) + 1)) as [nc| | |]; cbn [bind]; try reflexivity.
    do 3 f_equal. destruct (Z.ltb_spec nc nr); lia.
  Qed.
End Main.

(** The dimension of labels up to [mx]. *)
Definition dim (L : ity) (mx : Z) : Z := if (mx =? imax L)%Z then imin L else (mx + 1)%Z.

Lemma arith_top L : is_ity L -> arith L (imax L + 1) = if (isigned L && (32 <=? ibits L)%Z)%bool then UB else Ok (imin L).
Proof. intros HL. unfold is_ity in HL. cbn [In] in HL. repeat (destruct HL as [<-|HL]; [vm_compute; reflexivity|]). destruct HL. Qed.

Lemma arith_dim L mx : is_ity L -> isigned L = false \/ (ibits L < 32)%Z -> (0 <= mx <= imax L)%Z -> arith L (mx + 1) = Ok (dim L mx).
Proof.
  intros HL Hw Hm. unfold dim. destruct (Z.eqb_spec mx (imax L)) as [->|Hne].
  - rewrite arith_top by exact HL. destruct Hw as [->|Hw]; [reflexivity|]. destruct (Z.leb_spec 32 (ibits L)); [lia|]. rewrite Bool.andb_false_r. reflexivity.
  - pose proof (ity_facts L HL) as (H1 & H2 & _). apply arith_in; [exact HL|lia].
Qed.
