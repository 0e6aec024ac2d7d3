(** * CooExec: executing the stores of the setting pass *)

From Verif Require Import Base Reader Sched SchedLemmas Spec ReaderLemmas Coo CooLemmas.

(** The cells an instruction reads or writes lie in [lo, hi). *)
Definition wr_in {W} (lo hi : nat) (i : cinstr W) : Prop :=
  match i with
  | SetX i _ | SetY i _ | SetW i _ => lo <= i < hi
  | CopyW a b => (lo <= a < hi) /\ (lo <= b < hi)
  end.

Lemma comm_cinstr {W} lo1 hi1 lo2 hi2 (i j : cinstr W) :
  wr_in lo1 hi1 i -> wr_in lo2 hi2 j -> (hi1 <= lo2 \/ hi2 <= lo1) -> comm cexec i j.
Proof.
  intros Hi Hj Hd s. destruct s as [X Y Wt].
  destruct i, j; cbn [wr_in] in *; unfold cexec, aset, aget; cbn [bind cx cy cw];
  repeat (first
    [ match goal with
      | |- context [if ?a <? ?b then _ else _] => destruct (a <? b) eqn:?
      | |- context [match nth_error ?l ?n with _ => _ end] => destruct (nth_error l n) eqn:?
      end ]; cbn [bind cx cy cw]; rewrite ?upd_length in *;
      repeat (rewrite nth_error_upd_ne in * by lia));
  try congruence; try reflexivity;
  try (f_equal; f_equal; apply upd_comm; lia).
  match goal with H : Some _ = Some _ |- _ => injection H as -> end.
  f_equal; f_equal; apply upd_comm; lia.
Qed.

(** ** Sequential execution fills the arrays from the left *)
Section Fill.
  Context {W : Type}.
  Variable wr : option (wrd W).
  Variable fl : flags.
  Let sym := f_sym fl.
  Let ut := f_ut fl.
  Let sl := f_sl fl.

  (** The first cells hold [out]; [N] is the allocated size. *)
  Definition filled (N : nat) (out : list (Z * Z * W)) (s : cst W) : Prop :=
    exists rx ry rw,
      cx s = map (fun e => Some (fst (fst e))) out ++ rx /\
      cy s = map (fun e => Some (snd (fst e))) out ++ ry /\
      length out + length rx = N /\ length out + length ry = N /\
      (match wr with
       | None => cw s = []
       | Some _ => cw s = map (fun e => Some (snd e)) out ++ rw /\ length out + length rw = N
       end).

  Lemma aset_app {V} (a : list V) (b : list (option V)) (f : V -> option V) v c0 i :
    i = length a -> 
    aset i v (map f a ++ c0 :: b) = Ok (map f a ++ Some v :: b).
  Proof.
    intros ->. unfold aset. rewrite app_length, map_length; cbn [length].
    destruct (Nat.ltb_spec (length a) (length a + S (length b))); [|lia].
    f_equal. rewrite <- (map_length f a). rewrite upd_mid. reflexivity.
  Qed.

  Lemma aset_mapped {V E} (a : list E) (b : list (option V)) (f : E -> option V) v c0 i :
    i = length a -> aset i v (map f a ++ c0 :: b) = Ok (map f a ++ Some v :: b).
  Proof.
    intros ->. unfold aset. rewrite app_length, map_length; cbn [length].
    destruct (Nat.ltb_spec (length a) (length a + S (length b))); [|lia].
    f_equal. rewrite <- (map_length f a). rewrite upd_mid. reflexivity.
  Qed.

  Lemma aset_mapped1 {V E} (a : list E) (b : list (option V)) (f : E -> option V) v c0 c1 i :
    i = length a + 1 -> aset i v (map f a ++ c0 :: c1 :: b) = Ok (map f a ++ c0 :: Some v :: b).
  Proof.
    intros ->. unfold aset. rewrite app_length, map_length; cbn [length].
    destruct (Nat.ltb_spec (length a + 1) (length a + S (S (length b)))); [|lia].
    f_equal. rewrite <- (map_length f a) at 1. rewrite upd_app_r. reflexivity.
  Qed.

  Lemma upd_mapped1 {V E} (a : list E) (b : list (option V)) (f : E -> option V) v c0 c1 :
    upd (length a + 1) v (map f a ++ c0 :: c1 :: b) = map f a ++ c0 :: v :: b.
  Proof. rewrite <- (map_length f a) at 1. rewrite upd_app_r. reflexivity. Qed.

  Lemma nth_mapped {V E} (a : list E) (b : list (option V)) (f : E -> option V) c0 :
    nth_error (map f a ++ c0 :: b) (length a) = Some c0.
  Proof. rewrite nth_error_app2; rewrite map_length; [|lia]. rewrite Nat.sub_diag. reflexivity. Qed.

  Lemma exec_wcode N out s v : filled N out s -> length out < N ->
    exists s', exec_all cexec (wcode wr (length out) v) s = Ok s' /\ filled N out s' /\
      cx s' = cx s /\ cy s' = cy s /\
      match wr with
      | None => cw s' = []
      | Some _ => exists rw, cw s' = map (fun e => Some (snd e)) out ++ Some v :: rw /\ length out + S (length rw) = N
      end.
  Proof.
    intros (rx & ry & rw & Hx & Hy & Hlx & Hly & Hw) Hn. unfold wcode. destruct wr as [w|] eqn:Ew.
    - destruct Hw as [Hw Hlw]. destruct rw as [|c0 rw]; [cbn [length] in Hlw; lia|].
      cbn [exec_all cexec]. rewrite Hw. rewrite aset_mapped by reflexivity. cbn [bind].
      eexists; split; [reflexivity|]. cbn [cx cy cw]. split; [|split; [reflexivity|split; [reflexivity|]]].
      + exists rx, ry, (Some v :: rw). cbn [cx cy cw]. rewrite Ew. auto 10.
      + exists rw; auto.
    - cbn [exec_all]. exists s. split; [reflexivity|]. split; [exists rx, ry, rw; rewrite Ew; auto 10|]. auto.
  Qed.

  Lemma exec_line N out s p : filled N out s ->
    length out + length (expand sym ut sl (ent p)) <= N ->
    (wr = None \/ length out < N) ->
    exists s', exec_all cexec (line_code wr fl (length out) p) s = Ok s' /\
               filled N (out ++ expand sym ut sl (ent p)) s'.
  Proof.
    intros Hf Hn Hw.
    assert (Hcase : drop fl p = true \/ drop fl p = false) by (destruct (drop fl p); auto).
    destruct Hcase as [Ed|Ed].
    - unfold line_code. rewrite Ed. apply drop_expand in Ed. fold sym ut sl in Ed. rewrite Ed, app_nil_r.
      destruct (Nat.ltb_spec (length out) N) as [Hlt|Hge].
      + destruct (exec_wcode N out s (snd p) Hf Hlt) as (s' & E & Hf' & _). eauto.
      + destruct Hw as [Hw|Hw]; [|lia]. exists s. unfold wcode. rewrite Hw. split; [reflexivity|exact Hf].
    - pose proof (doubled_expand fl p Ed) as Hlen. fold sym ut sl in Hlen.
      assert (Hlt : length out < N) by (destruct (doubled _ _ _) in Hlen; lia).
      destruct (exec_wcode N out s (snd p) Hf Hlt) as (s1 & E1 & Hf1 & Hx1 & Hy1 & Hw1).
      pose proof (kept_keep fl p Ed) as Hk. cbn zeta in Hk. fold sym ut sl in Hk.
      unfold line_code. rewrite Ed.
      set (x0 := dval (l_x (fst p))) in *. set (y0 := dval (l_y (fst p))) in *.
      rewrite doubled_swap.
      set (x := if f_sym fl && f_ut fl && (y0 <? x0)%Z then y0 else x0) in *.
      set (y := if f_sym fl && f_ut fl && (y0 <? x0)%Z then x0 else y0) in *.
      destruct Hf as (rx & ry & rw & Hx & Hy & Hlx & Hly & _).
      rewrite Hx in Hx1. rewrite Hy in Hy1.
      destruct rx as [|cx0 rx]; [cbn [length] in *; lia|].
      destruct ry as [|cy0 ry]; [cbn [length] in *; lia|].
      destruct (doubled fl x0 y0) eqn:Edb.
      + assert (Hex : expand sym ut sl (ent p) = [(x, y, snd p); (y, x, snd p)]).
        { unfold doubled in Edb. unfold kept in Hk. unfold expand, ent in *. fold x0 y0 in Hk |- *.
          unfold sym, ut, sl, x, y in *. destruct fl as [[] [] sl']; cbn in Edb; try discriminate.
          cbn in *. destruct (x0 =? y0)%Z; [discriminate|]. rewrite andb_false_r. reflexivity. }
        rewrite Hex in *. cbn [length] in Hn, Hlen.
        destruct rx as [|cx1 rx]; [cbn [length] in *; lia|].
        destruct ry as [|cy1 ry]; [cbn [length] in *; lia|].
        rewrite <- app_assoc. rewrite exec_all_app, E1. cbn [bind app].
        cbn [exec_all cexec]. rewrite Hx1. rewrite aset_mapped by reflexivity. cbn [bind cx cy cw].
        rewrite Hy1. rewrite aset_mapped by reflexivity. cbn [bind cx cy cw].
        destruct wr as [w|] eqn:Ew.
        * destruct Hw1 as (rw' & Hw1 & Hlw1). destruct rw' as [|cw1 rw']; [cbn [length] in *; lia|].
          cbn [app exec_all cexec cw]. unfold aget. rewrite Hw1, nth_mapped. cbn [bind].
          rewrite app_length, map_length; cbn [length].
          destruct (Nat.ltb_spec (length out + 1) (length out + S (S (length rw')))); [|lia].
          cbn [bind cx cy cw]. rewrite upd_mapped1.
          rewrite aset_mapped1 by reflexivity. cbn [bind cx cy cw].
          rewrite aset_mapped1 by reflexivity. cbn [bind cx cy cw].
          eexists; split; [reflexivity|].
          exists rx, ry, rw'. cbn [cx cy cw]. rewrite !map_app, <- !app_assoc, !app_length, Ew. cbn [map app length fst snd] in *.
          repeat split; lia.
        * cbn [app exec_all cexec cx cy cw].
          rewrite aset_mapped1 by reflexivity. cbn [bind cx cy cw].
          rewrite aset_mapped1 by reflexivity. cbn [bind cx cy cw].
          eexists; split; [reflexivity|].
          exists rx, ry, []. cbn [cx cy cw]. rewrite !map_app, <- !app_assoc, !app_length, Ew. cbn [map app length fst snd] in *.
          repeat split; try lia. exact Hw1.
      + assert (Hex : expand sym ut sl (ent p) = [(x, y, snd p)]).
        { unfold kept in Hk. destruct (expand sym ut sl (ent p)) as [|a [|b l]]; cbn in Hlen; try discriminate.
          cbn in Hk. exact Hk. }
        rewrite Hex in *. cbn [length] in Hn, Hlen.
        rewrite exec_all_app, E1. cbn [bind app].
        cbn [exec_all cexec]. rewrite Hx1. rewrite aset_mapped by reflexivity. cbn [bind cx cy cw].
        rewrite Hy1. rewrite aset_mapped by reflexivity. cbn [bind cx cy cw].
        eexists; split; [reflexivity|].
        destruct wr as [w|] eqn:Ew.
        * destruct Hw1 as (rw' & Hw1 & Hlw1).
          exists rx, ry, rw'. cbn [cx cy cw]. rewrite !map_app, <- !app_assoc, !app_length, Ew. cbn [map app length fst snd] in *.
          repeat split; try lia. exact Hw1.
        * exists rx, ry, []. cbn [cx cy cw]. rewrite !map_app, <- !app_assoc, !app_length, Ew. cbn [map app length fst snd] in *.
          repeat split; try lia. exact Hw1.
  Qed.

  Lemma lastdrop_total (p : line * W) ps : lastdrop fl (p :: ps) = false -> 1 <= total fl (p :: ps).
  Proof.
    revert p; induction ps as [|q ps IH]; intros p H.
    - cbn [lastdrop] in H. rewrite total_cons. pose proof (doubled_expand fl p H) as E.
      rewrite E. destruct (doubled _ _ _); lia.
    - rewrite total_cons. specialize (IH q H). lia.
  Qed.

  Lemma exec_codes N ps : forall out s, filled N out s ->
    length out + total fl ps <= N -> (wr = None \/ lastdrop fl ps = false) ->
    exists s', exec_all cexec (codes wr fl (length out) ps) s = Ok s' /\
               filled N (out ++ flat_map (expand sym ut sl) (map ent ps)) s'.
  Proof.
    induction ps as [|p ps IH]; intros out s Hf Hn Hw.
    - exists s. cbn. rewrite app_nil_r. auto.
    - cbn [codes]. rewrite exec_all_app.
      rewrite total_cons in Hn.
      destruct (exec_line N out s p Hf) as (s1 & E1 & Hf1).
      { unfold sym, ut, sl; lia. }
      { destruct Hw as [Hw|Hw]; [left; exact Hw|right]. pose proof (lastdrop_total p ps Hw) as H. rewrite total_cons in H. lia. }
      rewrite E1. cbn [bind].
      replace (length out + length (expand (f_sym fl) (f_ut fl) (f_sl fl) (ent p)))
        with (length (out ++ expand sym ut sl (ent p))) by (rewrite app_length; reflexivity).
      destruct (IH _ s1 Hf1) as (s2 & E2 & Hf2).
      + rewrite app_length. unfold sym, ut, sl. lia.
      + destruct Hw as [Hw|Hw]; [left; exact Hw|right]. destruct ps as [|q ps]; [reflexivity|exact Hw].
      + exists s2. split; [exact E2|]. cbn [map flat_map]. rewrite app_assoc. exact Hf2.
  Qed.

  (** Every store of a thread falls in its own range. *)
  Lemma line_code_in lo hi pos p :
    lo <= pos -> pos + length (expand sym ut sl (ent p)) <= hi ->
    (wr = None \/ pos < hi) -> Forall (wr_in lo hi) (line_code wr fl pos p).
  Proof.
    intros Hlo Hhi Hw. unfold line_code.
    assert (Hwc : (wr = None \/ pos < hi) -> Forall (wr_in lo hi) (wcode wr pos (snd p))).
    { intros H. unfold wcode. destruct wr; [|constructor]. constructor; [|constructor]. cbn. destruct H; [discriminate|lia]. }
    destruct (drop fl p) eqn:Ed; [apply Hwc; exact Hw|].
    pose proof (doubled_expand fl p Ed) as Hlen. fold sym ut sl in Hlen.
    rewrite doubled_swap. destruct (doubled fl _ _).
    - apply Forall_app; split; [apply Forall_app; split; [apply Hwc; exact Hw|]|apply Forall_app; split].
      + repeat constructor; cbn; lia.
      + destruct wr; repeat constructor; cbn; lia.
      + repeat constructor; cbn; lia.
    - apply Forall_app; split; [apply Hwc; exact Hw|]. repeat constructor; cbn; lia.
  Qed.

  Lemma codes_in ps : forall lo hi pos,
    lo <= pos -> pos + total fl ps <= hi -> (wr = None \/ lastdrop fl ps = false) ->
    Forall (wr_in lo hi) (codes wr fl pos ps).
  Proof.
    induction ps as [|p ps IH]; intros lo hi pos Hlo Hhi Hw; [constructor|].
    cbn [codes]. rewrite total_cons in Hhi. apply Forall_app; split.
    - apply line_code_in; [exact Hlo|unfold sym, ut, sl; lia|].
      destruct Hw as [Hw|Hw]; [left; exact Hw|right]. pose proof (lastdrop_total p ps Hw) as H. rewrite total_cons in H. lia.
    - apply IH; [lia|lia|]. destruct Hw as [Hw|Hw]; [left; exact Hw|right]. destruct ps as [|q ps]; [reflexivity|exact Hw].
  Qed.

  Lemma codesT_codes m e pos ps : (wr = None \/ lastdrop fl ps = false) -> codesT wr fl m e pos ps = codes wr fl pos ps.
  Proof.
    intros H. unfold codesT. destruct (lastdrop fl ps) eqn:E; [|apply app_nil_r].
    destruct H as [H|H]; [|discriminate]. unfold etail. rewrite H. apply app_nil_r.
  Qed.

  Lemma codes_app a : forall b pos,
    codes wr fl pos (a ++ b) = codes wr fl pos a ++ codes wr fl (pos + total fl a) b.
  Proof.
    induction a as [|p a IH]; intros b pos; cbn [app codes].
    - unfold total; cbn. rewrite Nat.add_0_r. reflexivity.
    - rewrite IH, <- app_assoc, total_cons, Nat.add_assoc. reflexivity.
  Qed.

  Lemma total_app (a b : list (line * W)) : total fl (a ++ b) = total fl a + total fl b.
  Proof. unfold total. rewrite map_app, flat_map_app, app_length. reflexivity. Qed.
End Fill.
