From Verif Require Import Base Sched SchedLemmas Coo Ascii Csr SpecRace Race CsrLemmas CsrFine SpecLog.

(** ** Cells *)
Lemma cell_inv {V} i (l : list (option V)) v : cell_of i l = Ok v -> nth_error l i = Some (Some v).
Proof. unfold cell_of, aget. destruct (nth_error l i) as [[x|]|]; cbn [bind]; congruence. Qed.

Lemma cell_eq {V} i (l1 l2 : list (option V)) v : nth_error l1 i = nth_error l2 i -> cell_of i l1 = Ok v -> cell_of i l2 = Ok v.
Proof. intros H E. apply cell_inv in E. apply cell_of_some. congruence. Qed.

Lemma aset_inv {V} i (v : V) l l' : aset i v l = Ok l' -> nth_error l i <> None /\ nth_error l' i = Some (Some v) /\ forall j, i <> j -> nth_error l' j = nth_error l j.
Proof.
  unfold aset. destruct (Nat.ltb_spec i (length l)); [|discriminate]. intros E. injection E as <-.
  split; [apply nth_error_Some; assumption|]. split; [now apply nth_error_upd_eq|]. intros j Hj. now apply nth_error_upd_ne.
Qed.

Lemma aset_def {V} i (v : V) l : nth_error l i <> None -> exists l', aset i v l = Ok l'.
Proof. intros H. apply nth_error_Some in H. unfold aset. destruct (Nat.ltb_spec i (length l)); [eauto|lia]. Qed.

(** The content of a cell of an array of integers or of weights. *)
Definition zcell {W} (l : list (option Z)) (i : nat) : option (option (Z + W)) := option_map (option_map inl) (nth_error l i).
Definition wcell {W} (l : list (option W)) (i : nat) : option (option (Z + W)) := option_map (option_map inr) (nth_error l i).

Lemma zcell_inj {W} l1 l2 i j : zcell (W:=W) l1 i = zcell l2 j -> nth_error l1 i = nth_error l2 j.
Proof. unfold zcell. destruct (nth_error l1 i) as [[x|]|], (nth_error l2 j) as [[y|]|]; cbn; congruence. Qed.
Lemma wcell_inj {W} (l1 l2 : list (option W)) i j : wcell l1 i = wcell l2 j -> nth_error l1 i = nth_error l2 j.
Proof. unfold wcell. destruct (nth_error l1 i) as [[x|]|], (nth_error l2 j) as [[y|]|]; cbn; congruence. Qed.
Lemma zcell_none {W} l i : zcell (W:=W) l i = None <-> nth_error l i = None.
Proof. unfold zcell. destruct (nth_error l i); cbn; intuition congruence. Qed.
Lemma wcell_none {W} (l : list (option W)) i : wcell l i = None <-> nth_error l i = None.
Proof. unfold wcell. destruct (nth_error l i); cbn; intuition congruence. Qed.
Lemma zcell_eq {W} l1 l2 i : nth_error l1 i = nth_error l2 i -> zcell (W:=W) l1 i = zcell l2 i.
Proof. unfold zcell. now intros ->. Qed.
Lemma wcell_eq {W} (l1 l2 : list (option W)) i : nth_error l1 i = nth_error l2 i -> wcell l1 i = wcell l2 i.
Proof. unfold wcell. now intros ->. Qed.

(** ** [convert_coo_] and the prefix sums of [new_csr_without_dups] *)
Section Fine.
  Context {W : Type}.

  Definition fview (c : coo W) (s : fst_ W) (l : floc) : option (option (Z + W)) :=
    let '(a, i) := l in
    match a with
    | AllDegs => zcell (f_deg s) i | LabelDegs => zcell (f_lab s) i | StartOffsets => zcell (f_start s) i
    | Offsets => zcell (f_off s) i | Endpoints => zcell (f_end s) i | Weights => wcell (f_w s) i
    | CooX => zcell (co_x c) i | CooY => zcell (co_y c) i | CooW => wcell (co_w c) i
    | SrcOffsets | SrcEnds | SrcWeights => None
    end.
  Definition fpriv (t : nat) (s : fst_ W) : list (option (option Z)) :=
    [nth_error (f_this s) t; nth_error (f_my s) t; nth_error (f_tot s) t; nth_error (f_cur s) t; nth_error (f_pos s) t].

  Variables (O : ity) (cp : bool) (n : nat) (m : Z).

  Ltac steps E := repeat (let x := fresh "x" in let H := fresh "H" in apply bind_ok_inv in E as (x & H & E)); injection E as <-.

  Ltac priv_frame := let u := fresh "u" in let Hu := fresh in
    intros u Hu; unfold fpriv; cbn [f_this f_my f_tot f_cur f_pos]; try reflexivity;
    repeat match goal with H : aset _ _ ?l = Ok ?x |- context [nth_error ?x u] => rewrite (proj2 (proj2 (aset_inv _ _ _ _ H))) by congruence end; reflexivity.

  Lemma src_log (c : coo W) e x j k : cell_of e (co_x c) = Ok x -> idx x = Ok j -> at_src c e k = k j.
  Proof. intros H1 H2. unfold at_src. rewrite H1. cbn [bind]. now rewrite H2. Qed.
  Lemma slot_log (c : coo W) t e s p k : f_slot O c t e s = Ok p -> at_slot O c t e s k = k p.
  Proof. intros H1. unfold at_slot. now rewrite H1. Qed.

  Ltac hit Hl := first [discriminate (Hl Write ltac:(cbn [In app]; auto 8)) | discriminate (Hl Atomic ltac:(cbn [In app]; auto 8))].
  Ltac view_frame := let a := fresh "a" in let j := fresh "j" in let Hl := fresh "Hl" in
    intros [a j] Hl; cbn [facc] in Hl;
    repeat match goal with H1 : cell_of ?e (co_x ?c) = Ok ?x, H2 : idx ?x = Ok ?y |- _ => rewrite (src_log c e x y _ H1 H2) in Hl; clear H2 end;
    repeat match goal with H1 : f_slot _ _ _ _ _ = Ok _ |- _ => rewrite (slot_log _ _ _ _ _ _ H1) in Hl; clear H1 end;
    unfold rd, wr, at_ in Hl;
    destruct a; cbn [fview f_deg f_lab f_start f_off f_end f_w]; try reflexivity;
    match goal with H : aset ?p _ ?l = Ok ?x |- _ ?x j = _ =>
      (apply zcell_eq || apply wcell_eq); apply (proj2 (proj2 (aset_inv _ _ _ _ H))); intros ->; hit Hl end.
  Ltac frames E := steps E; split; [view_frame|priv_frame].

  Lemma fine_writes : writes_logged (fun c => fexec O cp c n m) (fun c => facc O cp c n) fview fpriv.
  Proof.
    intros c t i s s' E. destruct s as [deg lab start off en w this my tot cur pos].
    destruct i as [v|e| |v|v| | |j| |v|v| |e|e|e]; cbn [fexec] in E.
    - frames E.
    - frames E.
    - frames E.
    - frames E.
    - destruct cp; [frames E|]. steps E. injection H0 as <-. split; [view_frame|priv_frame].
    - frames E.
    - frames E.
    - frames E.
    - frames E.
    - frames E.
    - frames E.
    - frames E.
    - frames E.
    - steps E. assert (SL := H0). unfold f_slot in SL. apply bind_ok_inv in SL as (y & A & SL). apply bind_ok_inv in SL as (z & B & SL). clear SL.
      split; [view_frame|priv_frame].
    - steps E. assert (SL := H0). unfold f_slot in SL. apply bind_ok_inv in SL as (y & A & SL). apply bind_ok_inv in SL as (z & B & SL). clear SL.
      split; [view_frame|priv_frame].
  Qed.

  (** Reading equal cells. *)
  Ltac rdz HR l X := pose proof (HR l Read ltac:(cbn [In app]; auto 8) ltac:(discriminate)) as X; cbn [fview f_deg f_lab f_start f_off f_end f_w] in X; apply zcell_inj in X.
  Ltac rdw HR l X := pose proof (HR l Read ltac:(cbn [In app]; auto 8) ltac:(discriminate)) as X; cbn [fview f_deg f_lab f_start f_off f_end f_w] in X; apply wcell_inj in X.
  Ltac atz HR l X := pose proof (HR l Atomic ltac:(cbn [In app]; auto 8) ltac:(discriminate)) as X; cbn [fview f_deg f_lab f_start f_off f_end f_w] in X; apply zcell_inj in X.
  (** A store to a cell that exists in both memories. *)
  Ltac wrz HD l H q X := pose proof (HD l) as X; cbn [fview f_deg f_lab f_start f_off f_end f_w] in X; rewrite !zcell_none in X;
    match type of H with aset ?i ?v ?a = Ok ?a' =>
      match type of X with _ <-> nth_error ?b _ = None =>
        let F := fresh "F" in destruct (aset_def i v b) as [q F]; [intros Y; apply X in Y; exact (proj1 (aset_inv _ _ _ _ H) Y)|] end end.
  Ltac wrw HD l H q X := pose proof (HD l) as X; cbn [fview f_deg f_lab f_start f_off f_end f_w] in X; rewrite !wcell_none in X;
    match type of H with aset ?i ?v ?a = Ok ?a' =>
      match type of X with _ <-> nth_error ?b _ = None =>
        let F := fresh "F" in destruct (aset_def i v b) as [q F]; [intros Y; apply X in Y; exact (proj1 (aset_inv _ _ _ _ H) Y)|] end end.
  (** A store to a private variable. *)
  Ltac wrp Hp H q :=
    match type of H with aset ?i ?v ?a = Ok ?a' =>
      match type of Hp with nth_error a _ = nth_error ?b _ =>
        let F := fresh "F" in destruct (aset_def i v b) as [q F]; [intros Y; rewrite <- Hp in Y; exact (proj1 (aset_inv _ _ _ _ H) Y)|] end end.

  Lemma slot_eq (c1 c2 : coo W) t e s1 s2 x j p :
    cell_of e (co_x c1) = Ok x -> idx x = Ok j -> nth_error (co_x c1) e = nth_error (co_x c2) e ->
    nth_error (f_pos s1) t = nth_error (f_pos s2) t -> nth_error (f_off s1) (S j) = nth_error (f_off s2) (S j) ->
    f_slot O c1 t e s1 = Ok p -> f_slot O c2 t e s2 = Ok p.
  Proof.
    intros H1 H2 H3 H4 H5 E. unfold f_slot in *. rewrite H1 in E. rewrite (cell_eq _ _ _ _ H3 H1). cbn [bind] in *. rewrite H2 in *. cbn [bind] in *.
    apply bind_ok_inv in E as (r & A & E). apply bind_ok_inv in E as (o & B & E).
    rewrite (cell_eq _ _ _ _ H4 A). cbn [bind]. rewrite (cell_eq _ _ _ _ H5 B). cbn [bind]. exact E.
  Qed.

  Ltac use := repeat match goal with
    | H : nth_error ?l1 ?i = nth_error ?l2 ?i, E : cell_of ?i ?l1 = Ok ?v |- context [cell_of ?i ?l2] => rewrite (cell_eq _ _ _ _ H E); cbn [bind]
    | E : arith O ?a = Ok ?b |- context [arith O ?a] => rewrite E; cbn [bind]
    | E : idx ?a = Ok ?b |- context [idx ?a] => rewrite E; cbn [bind]
    | E : aset ?i ?v ?l = Ok ?b |- context [aset ?i ?v ?l] => rewrite E; cbn [bind]
    end.
  Ltac after := repeat match goal with
    | H : aset _ _ _ = Ok ?x |- context [nth_error ?x _] => rewrite (proj1 (proj2 (aset_inv _ _ _ _ H)))
    end.
  (** The conclusion, once [exec] on the second memory is known. *)
  Ltac fin_ := eexists; split; [reflexivity|]; split; [|split;
    [unfold fpriv; cbn [f_this f_my f_tot f_cur f_pos]; after; congruence|
     let l := fresh "l" in let k := fresh "k" in let I := fresh "I" in let K := fresh "K" in
     intros l k I K; cbn [In app] in I;
     repeat (destruct I as [I|I]; [injection I as <- <-; try congruence; cbn [fview f_deg f_lab f_start f_off f_end f_w];
       (apply zcell_eq || apply wcell_eq); after; reflexivity|]); destruct I]].

  Lemma fine_reads : reads_logged (fun c => fexec O cp c n m) (fun c => facc O cp c n) fview fpriv.
  Proof.
    intros c1 c2 t i s1 s2 s1' E HP HD HR. unfold fpriv in HP. injection HP as P1 P2 P3 P4 P5.
    destruct s1 as [deg lab start off en w this my tot cur pos], s2 as [deg2 lab2 start2 off2 en2 w2 this2 my2 tot2 cur2 pos2].
    cbn [f_this f_my f_tot f_cur f_pos] in P1, P2, P3, P4, P5.
    destruct i as [v|e| |v|v| | |j| |v|v| |e|e|e]; cbn [fexec] in E |- *.
    - steps E. cbn [facc] in *. wrz HD (AllDegs, v) H q X. use. fin_. reflexivity.
    - steps E. cbn [facc] in *.
      rewrite (src_log c1 e x x0 _ H H0) in *. unfold rd, at_ in *. rdz HR (CooX, e) X1. atz HR (AllDegs, x0) X2.
      rewrite (src_log c2 e x x0 _ (cell_eq _ _ _ _ X1 H) H0). wrz HD (AllDegs, x0) H3 q X. use. fin_. reflexivity.
    - steps E. cbn [facc] in *. wrp P2 H q. use. fin_. reflexivity.
    - steps E. cbn [facc] in *. unfold rd in *. rdz HR (AllDegs, v) X1. wrp P1 H0 q. use. fin_. reflexivity.
    - cbn [facc] in *. destruct cp; steps E.
      + wrz HD (LabelDegs, v) H0 q X. wrp P2 H3 q2. use. fin_. reflexivity.
      + injection H0 as <-. wrp P2 H3 q2. use. fin_. reflexivity.
    - steps E. cbn [facc] in *. wrz HD (StartOffsets, t) H0 q X. use. fin_. reflexivity.
    - steps E. cbn [facc] in *. wrp P3 H q. use. fin_. reflexivity.
    - steps E. cbn [facc] in *. unfold rd in *. rdz HR (StartOffsets, j) X1. wrp P3 H2 q. wrz HD (StartOffsets, j) H3 q2 X. use. fin_. reflexivity.
    - cbn [facc] in *. destruct t as [|t'].
      + steps E. injection H as <-. wrp P4 H0 q. cbn [bind]. use. fin_. reflexivity.
      + steps E. unfold rd in *. rdz HR (StartOffsets, t') X1. wrp P4 H0 q. use. fin_. reflexivity.
    - steps E. cbn [facc] in *. wrz HD (Offsets, v) H0 q X. use. fin_. reflexivity.
    - cbn [facc] in *. unfold rd in *. destruct cp; steps E.
      + rdz HR (LabelDegs, v) X1. wrp P4 H2 q. use. fin_. reflexivity.
      + rdz HR (AllDegs, v) X1. wrp P4 H2 q. use. fin_. reflexivity.
    - steps E. cbn [facc] in *. wrz HD (Offsets, n) H q X. use. fin_. reflexivity.
    - steps E. cbn [facc] in *.
      rewrite (src_log c1 e x x0 _ H H0) in *. unfold rd, at_ in *. rdz HR (CooX, e) X1. atz HR (LabelDegs, x0) X2.
      rewrite (src_log c2 e x x0 _ (cell_eq _ _ _ _ X1 H) H0). wrz HD (LabelDegs, x0) H3 q X. wrp P5 H4 q2. use. fin_. reflexivity.
    - steps E. cbn [facc] in *.
      assert (SL := H0). unfold f_slot in SL. apply bind_ok_inv in SL as (y & A & SL). apply bind_ok_inv in SL as (z & B & SL). clear SL.
      rewrite (src_log c1 e y z _ A B) in *. rewrite (slot_log c1 t e _ x0 _ H0) in *. unfold rd, wr in *.
      rdz HR (CooX, e) X1. rdz HR (CooY, e) X2. rdz HR (Offsets, S z) X3.
      rewrite (src_log c2 e y z _ (cell_eq _ _ _ _ X1 A) B).
      pose proof (slot_eq c1 c2 t e (mkF deg lab start off en w this my tot cur pos) (mkF deg2 lab2 start2 off2 en2 w2 this2 my2 tot2 cur2 pos2) y z x0 A B X1 P5 X3 H0) as SL.
      rewrite (slot_log c2 t e _ x0 _ SL). wrz HD (Endpoints, x0) H1 q X. use. rewrite SL. cbn [bind]. use. fin_. reflexivity.
    - steps E. cbn [facc] in *.
      assert (SL := H0). unfold f_slot in SL. apply bind_ok_inv in SL as (y & A & SL). apply bind_ok_inv in SL as (z & B & SL). clear SL.
      rewrite (src_log c1 e y z _ A B) in *. rewrite (slot_log c1 t e _ x0 _ H0) in *. unfold rd, wr in *.
      rdz HR (CooX, e) X1. rdw HR (CooW, e) X2. rdz HR (Offsets, S z) X3.
      rewrite (src_log c2 e y z _ (cell_eq _ _ _ _ X1 A) B).
      pose proof (slot_eq c1 c2 t e (mkF deg lab start off en w this my tot cur pos) (mkF deg2 lab2 start2 off2 en2 w2 this2 my2 tot2 cur2 pos2) y z x0 A B X1 P5 X3 H0) as SL.
      rewrite (slot_log c2 t e _ x0 _ SL). wrw HD (Weights, x0) H1 q X. use. rewrite SL. cbn [bind]. use. fin_. reflexivity.
  Qed.
End Fine.
