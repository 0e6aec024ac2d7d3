(** * Property C57, continued: the logs are complete

    The theorems of P_Race.v are about logs of memory accesses.  Here: no action
    accesses shared memory without logging it (SpecLog.v), in every parallel
    section with a log. *)

From Verif Require Import Base Sched SchedLemmas Coo Ascii Csr Graph SpecRace Race CsrLemmas CsrFine DupFine GraphFine ElSpec SpecLog Log LogDup P_Race.

(** ** COO to CSR, and the prefix sums of [new_csr_without_dups] *)
Theorem C57_log_coo_to_csr : forall {W} O copies n m,
  log_complete (fun (c : coo W) => fexec O copies c n m) (fun c => facc O copies c n) fview fpriv.
Proof. intros W O cp n m. split; [apply fine_writes|apply fine_reads]. Qed.
Print Assumptions C57_log_coo_to_csr.

(** ** [sort], counting and copying *)
Theorem C57_log_dups : forall {W} (srt : list (Z * W) -> list (Z * W)) srt1 weighted L,
  (forall l, length (srt l) = length l) -> (forall l, length (srt1 l) = length l) ->
  log_complete (fun off (_ : nat) => sort_exec srt srt1 weighted off) (fun off => sort_acc weighted off) sview (fun _ _ => tt) /\
  log_complete (fun (c : csr W) (_ : nat) => count_exec L c) count_acc nview (fun _ _ => tt) /\
  log_complete (fun (_ : csr W * list (option Z)) (_ : nat) => copy_exec) (fun e => copy_acc weighted (fst e)) dview (fun _ _ => tt) /\
  (* the stores of a row are determined by the loads logged for the row *)
  (forall (e1 e2 : csr W * list (option Z)) v t s1 s2 code,
    copy_prog weighted (fst e1) (snd e1) v = Ok code ->
    (forall l k, In (l, k) (copy_acc weighted (fst e1) t (DRead v) s1) -> dview e1 s1 l = dview e2 s2 l) ->
    copy_prog weighted (fst e2) (snd e2) v = Ok code).
Proof.
  intros W srt srt1 weighted L H1 H2. split; [now apply sort_complete|]. split; [apply count_complete|]. split; [apply copy_complete|].
  intros. eapply copy_prog_logged; eauto.
Qed.
Print Assumptions C57_log_dups.

(** ** The stores of the edge list readers and of CSR to COO *)
Definition cview {W} (_ : unit) (s : cst W) (l : cell) : option (option (Z + W)) :=
  match l with CX i => zcell (cx s) i | CY i => zcell (cy s) i | CW i => wcell (cw s) i end.

Theorem C57_log_coo : forall {W},
  log_complete (fun (_ : unit) (_ : nat) => @cexec W) (fun _ => cacc) cview (fun _ _ => tt).
Proof.
  intros W. split.
  - intros u t i s s' E. split; [|reflexivity]. intros l Hl. unfold cacc in Hl.
    destruct i as [p v|p v|p v|a b]; cbn [cexec reads writes map app] in *.
    + apply bind_ok_inv in E as (x & Ex & E). injection E as <-. destruct l; cbn [cview cx cy cw]; try reflexivity. apply zcell_eq.
      apply (proj2 (proj2 (aset_inv _ _ _ _ Ex))). intros <-. discriminate (Hl Write ltac:(cbn; auto)).
    + apply bind_ok_inv in E as (x & Ex & E). injection E as <-. destruct l; cbn [cview cx cy cw]; try reflexivity. apply zcell_eq.
      apply (proj2 (proj2 (aset_inv _ _ _ _ Ex))). intros <-. discriminate (Hl Write ltac:(cbn; auto)).
    + apply bind_ok_inv in E as (x & Ex & E). injection E as <-. destruct l; cbn [cview cx cy cw]; try reflexivity. apply wcell_eq.
      apply (proj2 (proj2 (aset_inv _ _ _ _ Ex))). intros <-. discriminate (Hl Write ltac:(cbn; auto)).
    + apply bind_ok_inv in E as (x & Ex & E). destruct (Nat.ltb_spec b (length (cw s))); [|discriminate]. injection E as <-.
      destruct l; cbn [cview cx cy cw]; try reflexivity. apply wcell_eq. apply nth_error_upd_ne. intros <-. discriminate (Hl Write ltac:(cbn; auto)).
  - intros u1 u2 t i s1 s2 s1' E _ HD HR. unfold cacc in *.
    destruct i as [p v|p v|p v|a b]; cbn [cexec reads writes map app] in *.
    + apply bind_ok_inv in E as (x & Ex & E). injection E as <-. destruct (aset_def p v (cx s2)) as [x2 F].
      { intros X. apply (proj1 (aset_inv _ _ _ _ Ex)). pose proof (HD (CX p)) as Y. cbn [cview] in Y. rewrite !zcell_none in Y. tauto. }
      rewrite F. cbn [bind]. eexists. do 3 (split; [reflexivity|]). intros l k [I|[]] K. injection I as <- <-. cbn [cview cx cy cw].
      apply zcell_eq. rewrite (proj1 (proj2 (aset_inv _ _ _ _ Ex))), (proj1 (proj2 (aset_inv _ _ _ _ F))). reflexivity.
    + apply bind_ok_inv in E as (x & Ex & E). injection E as <-. destruct (aset_def p v (cy s2)) as [x2 F].
      { intros X. apply (proj1 (aset_inv _ _ _ _ Ex)). pose proof (HD (CY p)) as Y. cbn [cview] in Y. rewrite !zcell_none in Y. tauto. }
      rewrite F. cbn [bind]. eexists. do 3 (split; [reflexivity|]). intros l k [I|[]] K. injection I as <- <-. cbn [cview cx cy cw].
      apply zcell_eq. rewrite (proj1 (proj2 (aset_inv _ _ _ _ Ex))), (proj1 (proj2 (aset_inv _ _ _ _ F))). reflexivity.
    + apply bind_ok_inv in E as (x & Ex & E). injection E as <-. destruct (aset_def p v (cw s2)) as [x2 F].
      { intros X. apply (proj1 (aset_inv _ _ _ _ Ex)). pose proof (HD (CW p)) as Y. cbn [cview] in Y. rewrite !wcell_none in Y. tauto. }
      rewrite F. cbn [bind]. eexists. do 3 (split; [reflexivity|]). intros l k [I|[]] K. injection I as <- <-. cbn [cview cx cy cw].
      apply wcell_eq. rewrite (proj1 (proj2 (aset_inv _ _ _ _ Ex))), (proj1 (proj2 (aset_inv _ _ _ _ F))). reflexivity.
    + apply bind_ok_inv in E as (x & Ex & E). destruct (Nat.ltb_spec b (length (cw s1))) as [Hb|]; [|discriminate]. injection E as <-.
      assert (RA : nth_error (cw s1) a = nth_error (cw s2) a). { apply wcell_inj. apply (HR (CW a) Read); [cbn; auto|discriminate]. }
      unfold aget in *. rewrite <- RA. destruct (nth_error (cw s1) a) as [y|]; [|discriminate]. injection Ex as ->. cbn [bind].
      assert (Hb2 : b < length (cw s2)).
      { apply nth_error_Some. intros X. pose proof (HD (CW b)) as Y. cbn [cview] in Y. rewrite !wcell_none in Y. apply Y in X. apply nth_error_None in X. lia. }
      destruct (Nat.ltb_spec b (length (cw s2))); [|lia]. eexists. do 3 (split; [reflexivity|]).
      intros l k [I|[I|[]]] K; injection I as <- <-; [congruence|]. cbn [cview cx cy cw]. apply wcell_eq. rewrite !nth_error_upd_eq by assumption. reflexivity.
Qed.
Print Assumptions C57_log_coo.

(** ** The adjacency reader *)
Definition gview (_ : unit) (s : gst) (l : floc) : option (option (Z + unit)) :=
  match l with (Offsets, i) => zcell (g_off s) i | (Endpoints, i) => zcell (g_end s) i | _ => None end.

Lemma zset_inv i v l l' : zset i v l = Ok l' -> aset (Z.to_nat i) v l = Ok l' /\ (i <? 0)%Z = false.
Proof. unfold zset. destruct (i <? 0)%Z; [discriminate|auto]. Qed.

Theorem C57_log_graph : forall OS,
  log_complete (fun (_ : unit) (_ : nat) => gexec OS) (fun _ => gacc) gview (fun _ _ => tt) /\
  (* the flags: [true] is the load, [false] the store of the word by thread [t],
     and the word in its register is private *)
  log_complete (fun (_ : unit) (t : nat) (ld : bool) => hzexec (if ld then HzLoad t else HzStore t))
               (fun _ t ld => hz_acc t (if ld then HzLoad t else HzStore t))
               (fun (_ : unit) s l => nth_error (hz_words s) l) (fun t s => nth_error (hz_regs s) t).
Proof.
  intros OS. split; split.
  - intros u t i s s' E. split; [|reflexivity]. intros [a j] Hl. destruct i as [p v|p v]; cbn [gexec gacc] in *.
    + apply bind_ok_inv in E as (x & Ex & E). apply zset_inv in Ex as [Ex _]. injection E as <-. destruct a; cbn [gview g_off g_end]; try reflexivity.
      apply zcell_eq. apply (proj2 (proj2 (aset_inv _ _ _ _ Ex))). intros <-. discriminate (Hl Write ltac:(cbn; auto)).
    + apply bind_ok_inv in E as (x & Ex & E). apply zset_inv in Ex as [Ex _]. injection E as <-. destruct a; cbn [gview g_off g_end]; try reflexivity.
      apply zcell_eq. apply (proj2 (proj2 (aset_inv _ _ _ _ Ex))). intros <-. discriminate (Hl Write ltac:(cbn; auto)).
  - intros u1 u2 t i s1 s2 s1' E _ HD HR. destruct i as [p v|p v]; cbn [gexec gacc] in *.
    + apply bind_ok_inv in E as (x & Ex & E). apply zset_inv in Ex as [Ex Hp]. injection E as <-.
      destruct (aset_def (Z.to_nat p) (wrap OS v) (g_off s2)) as [x2 F].
      { intros X. apply (proj1 (aset_inv _ _ _ _ Ex)). pose proof (HD (Offsets, Z.to_nat p)) as Y. cbn [gview] in Y. rewrite !zcell_none in Y. tauto. }
      unfold zset. rewrite Hp, F. cbn [bind]. eexists. do 3 (split; [reflexivity|]). intros l k [I|[]] K. unfold wr in I. injection I as <- <-. cbn [gview g_off g_end].
      apply zcell_eq. rewrite (proj1 (proj2 (aset_inv _ _ _ _ Ex))), (proj1 (proj2 (aset_inv _ _ _ _ F))). reflexivity.
    + apply bind_ok_inv in E as (x & Ex & E). apply zset_inv in Ex as [Ex Hp]. injection E as <-.
      destruct (aset_def (Z.to_nat p) v (g_end s2)) as [x2 F].
      { intros X. apply (proj1 (aset_inv _ _ _ _ Ex)). pose proof (HD (Endpoints, Z.to_nat p)) as Y. cbn [gview] in Y. rewrite !zcell_none in Y. tauto. }
      unfold zset. rewrite Hp, F. cbn [bind]. eexists. do 3 (split; [reflexivity|]). intros l k [I|[]] K. unfold wr in I. injection I as <- <-. cbn [gview g_off g_end].
      apply zcell_eq. rewrite (proj1 (proj2 (aset_inv _ _ _ _ Ex))), (proj1 (proj2 (aset_inv _ _ _ _ F))). reflexivity.
  - intros u t [|] s s' E; cbn [hzexec] in E; injection E as <-; cbn [hz_words hz_regs hz_acc]; (split; [intros l Hl|intros v Hv]); try reflexivity.
    + apply nth_error_upd_ne. congruence.
    + apply nth_error_upd_ne. intros <-. discriminate (Hl Write ltac:(cbn; auto)).
  - intros u1 u2 t [|] s1 s2 s1' E HP HD HR; cbn [hzexec hz_acc] in *; injection E as <-; eexists; (split; [reflexivity|]); (split; [reflexivity|]); cbn [hz_words hz_regs]; change (fst (Nat.divmod t 63 0 63)) with (t / 64).
    + assert (EW : nth (t / 64) (hz_words s1) [] = nth (t / 64) (hz_words s2) []).
      { pose proof (HR (t / 64) Read (or_introl eq_refl) ltac:(discriminate)) as X. destruct (nth_error (hz_words s1) (t / 64)) eqn:Y.
        - rewrite (nth_error_nth _ _ _ Y). symmetry in X. now rewrite (nth_error_nth _ _ _ X).
        - symmetry in X. apply nth_error_None in X, Y. now rewrite !nth_overflow. }
      rewrite EW. split.
      * destruct (nth_error (hz_regs s1) t) eqn:Y.
        -- rewrite !nth_error_upd_eq; [reflexivity| |]; apply nth_error_Some; congruence.
        -- symmetry in HP. apply nth_error_None in HP, Y. transitivity (@None (list nat)); [|symmetry]; apply nth_error_None; rewrite upd_length; assumption.
      * intros l k [I|[]] K. injection I as <- <-. congruence.
    + split; [exact HP|]. intros l k [I|[]] K. injection I as <- <-.
      assert (ER : nth t (hz_regs s1) [] = nth t (hz_regs s2) []).
      { destruct (nth_error (hz_regs s1) t) eqn:Y.
        - rewrite (nth_error_nth _ _ _ Y). symmetry in HP. now rewrite (nth_error_nth _ _ _ HP).
        - symmetry in HP. apply nth_error_None in HP, Y. now rewrite !nth_overflow. }
      rewrite ER. pose proof (HD (t / 64)) as X.
      destruct (nth_error (hz_words s1) (t / 64)) eqn:Y.
      * rewrite !nth_error_upd_eq; [reflexivity| |]; apply nth_error_Some; change (fst (Nat.divmod t 63 0 63)) with (t / 64); first [congruence | intros Z; apply X in Z; discriminate].
      * assert (Z : nth_error (hz_words s2) (t / 64) = None) by (apply X; reflexivity). change (fst (Nat.divmod t 63 0 63)) with (t / 64).
        apply nth_error_None in Y, Z. transitivity (@None (list nat)); [|symmetry]; apply nth_error_None; rewrite upd_length; assumption.
Qed.
Print Assumptions C57_log_graph.

(** An example of what the completeness excludes: an action that logs its store
    but not the load of the offset it needs. *)
Example log_incomplete :
  ~ reads_logged (fun (c : coo unit) => fexec u8 true c 2 1%Z)
      (fun c t i s => filter (fun a => match fst (fst a) with Offsets => match snd a with Read => false | _ => true end | _ => true end)
                             (facc u8 true c 2 t i s)) fview fpriv.
Proof.
  intros H.
  set (c := mkCoo (W:=unit) [Some 0%Z] [Some 1%Z] [] (Some 2%Z) None None 1).
  set (st := fun o : Z => mkF (W:=unit) [] [] [] [Some 0%Z; Some o; Some 1%Z] [None; None] [] [None] [None] [None] [None] [Some 1%Z]).
  destruct (H c c 0 (FEnd 0) (st 1%Z) (st 2%Z) (mkF [] [] [] [Some 0%Z; Some 1%Z; Some 1%Z] [Some 1%Z; None] [] [None] [None] [None] [None] [Some 1%Z])) as (s2' & E & A & _).
  - reflexivity.
  - reflexivity.
  - intros [a i]. destruct a; cbn; try tauto. destruct i as [|[|[|i]]]; cbn; intuition discriminate.
  - intros l k I K. vm_compute in I. repeat (destruct I as [I|I]; [injection I as <- <-; try congruence; reflexivity|]). destruct I.
  - vm_compute in A. discriminate.
Qed.
