(** * Property C64: the cursor operations of [FileReader]

    [FileReader] is a public class: a range [d .. e-1] of a mapped file and a
    cursor [d].  Every operation, from every position of every text. *)

From Coq Require Import String.
From Verif Require Import Base Reader ReaderLemmas SpecCursor Cursor ElFinal SpecBin.
Open Scope list_scope.
Notation length := List.length.

(** The cursor [d] is in the range that ends at [e], and the byte at [e] itself
    may be looked at: it is a byte of the file, or the file ends there and its
    last page has room left. *)
Definition usable (pg : nat) (s : list byte) (d e : nat) : Prop :=
  0 < pg /\ d <= e <= length s /\ (e < length s \/ length s mod pg <> 0).

Lemma usable_m pg s d e : usable pg s d e -> e <= flen (mkMem s pg) /\ (e < flen (mkMem s pg) \/ slack (mkMem s pg)).
Proof.
  intros (Hp & [_ He] & H). unfold flen; cbn [bytes]. split; [exact He|]. destruct H as [H|H]; [left; exact H|].
  right. apply slack_off_page. split; assumption.
Qed.

(** A digit, or the start of a signed number. *)
Definition signed_start (c : byte) : bool := (is_digit c || (c =? 43) || (c =? 45))%Z.

Definition outside_comments (s : list byte) (p : byte -> bool) (d i : nat) : Prop :=
  char s p i /\ ~ in_comment s d i.

(** ** The operations that compare the cursor with the end before they look:
    they work everywhere. *)
Theorem C64_moves :
  forall (pg : nat) (s : list byte) (d e : nat), d <= e <= length s ->
  let m := mkMem s pg in
  (exists k, move_to_eol m e d = Ok k /\ first_pos (char s is_nl) d e k) /\
  (exists k, move_to_non_int m e d = Ok k /\ first_pos (not_char s is_digit) d e k) /\
  (exists k, move_to_fp m e d = Ok k /\ first_pos (char s is_fp) d e k) /\
  (exists k, move_to_non_fp m e d = Ok k /\ first_pos (not_char s is_fp) d e k) /\
  (forall c, exists k, move_to m c e d = Ok k /\ first_pos (fun i => i <> d /\ byte_at s i = c) d e k) /\
  (exists k, skip_comments m e d = Ok k /\ first_pos (fun i => ~ in_comment s d i) d e k).
Proof.
  intros pg s d e [Hd He] m. change (e <= flen m) in He.
  split; [exact (scan_neg m e He is_nl _ d (fun _ => eq_refl) Hd)|].
  split; [exact (scan_is m e He is_digit d Hd)|].
  split; [exact (scan_neg m e He is_fp _ d (fun _ => eq_refl) Hd)|].
  split; [exact (scan_is m e He is_fp d Hd)|].
  split.
  { intros c. unfold move_to.
    assert (X : forall d', d' <= e -> exists k, scan m (fun c0 => negb (c0 =? c)%Z) e d' = Ok k /\ first_pos (char s (fun c0 => c0 =? c)%Z) d' e k)
      by (intros d' Hd'; exact (scan_neg m e He (fun c0 => c0 =? c)%Z _ d' (fun _ => eq_refl) Hd')).
    destruct (Nat.ltb_spec d e) as [Hl|Hl].
    - rewrite (load_in m e He) by exact Hl. cbn [bind]. change (bytes m) with s.
      destruct (Z.eqb_spec (byte_at s d) c) as [E|E].
      + destruct (X (S d) ltac:(lia)) as (k & -> & K1 & K2 & K3). exists k. split; [reflexivity|]. unfold char in *. split; [lia|]. split.
        * intros i Hi [Y1 Y2]. apply (K2 i); lia.
        * intros Hk. specialize (K3 Hk). lia.
      + destruct (X d ltac:(lia)) as (k & -> & K1 & K2 & K3). exists k. split; [reflexivity|]. unfold char in *. split; [lia|]. split.
        * intros i Hi [Y1 Y2]. apply (K2 i); lia.
        * intros Hk. specialize (K3 Hk). split; [|lia]. intros ->. lia.
    - cbn [bind]. destruct (X d ltac:(lia)) as (k & -> & K1 & _). exists k. split; [reflexivity|]. split; [lia|]. split; lia. }
  exact (skip_comments_first m e He (S (e - d)) d Hd ltac:(lia)).
Qed.
Print Assumptions C64_moves.

(** ** The operations that look at the cursor first *)
Theorem C64_next :
  forall (pg : nat) (s : list byte) (d e : nat), usable pg s d e ->
  let m := mkMem s pg in
  (exists k, move_to_first_int m e d = Ok k /\ first_pos (outside_comments s is_digit d) d e k) /\
  (exists j k, move_to_next_int m e d = Ok k /\ first_pos (not_char s is_digit) d e j /\
     first_pos (outside_comments s is_digit j) j e k) /\
  (d < e -> exists j k, move_to_next_signed_int m e d = Ok k /\
     first_pos (not_char s is_digit) (if (byte_at s d =? 43) || (byte_at s d =? 45) then S d else d)%Z e j /\
     first_pos (outside_comments s signed_start j) j e k).
Proof.
  intros pg s d e U m. destruct (usable_m pg s d e U) as [He Hsl]. fold m in He, Hsl. destruct U as (_ & [Hd _] & _).
  split; [exact (first_int_first m e He Hsl d Hd)|].
  split.
  { unfold move_to_next_int. destruct (scan_is m e He is_digit d Hd) as (j & E & F). unfold move_to_non_int. rewrite E. cbn [bind].
    destruct (first_int_first m e He Hsl j) as (k & -> & K); [destruct F; lia|]. exists j, k. split; [reflexivity|]. split; [exact F|exact K]. }
  intros Hl. unfold move_to_next_signed_int. rewrite (load_in m e He) by exact Hl. cbn [bind]. change (bytes m) with s.
  change ((byte_at s d =? ch_plus)%Z) with ((byte_at s d =? 43)%Z). change ((byte_at s d =? ch_minus)%Z) with ((byte_at s d =? 45)%Z).
  set (d0 := if ((byte_at s d =? 43) || (byte_at s d =? 45))%Z then S d else d).
  assert (Hd0 : d0 <= e) by (unfold d0; destruct (_ || _); lia). clearbody d0.
  destruct (scan_is m e He is_digit d0 Hd0) as (j & E & F). unfold move_to_non_int. rewrite E. cbn [bind].
  destruct (seek_from m e He Hsl is_signed_start j (signed_nc m e He Hsl)) as (k & -> & K); [destruct F; lia|].
  exists j, k. split; [reflexivity|]. split; [exact F|exact K].
Qed.
Print Assumptions C64_next.

(** ** [move_to_next_int_or_nl] *)
(** What it does: pass the digits, then one newline unless a digit has been
    passed before it; then stop at the first digit or newline; a comment in the
    way is passed, with the comment lines behind it, and the cursor is left on
    the last byte of the last comment line. *)
Definition int_or_nl_from (s : list byte) (p e k : nat) : Prop :=
  exists q, first_pos (fun i => char s is_digit i \/ char s is_nl i \/ char s is_cmt i) p e q /\
    ((q < e /\ char s is_cmt q /\ exists f, first_pos (fun i => ~ in_comment s q i) q e f /\ k + 1 = f) \/
     (~ (q < e /\ char s is_cmt q) /\ k = q)).

Definition next_int_or_nl (s : list byte) (d e k : nat) : Prop :=
  exists j, first_pos (not_char s is_digit) d e j /\
    ((d < j < e /\ char s is_nl j /\ k = j) \/
     (d = j /\ j < e /\ char s is_nl j /\ int_or_nl_from s (S j) e k) \/
     (~ (j < e /\ char s is_nl j) /\ int_or_nl_from s j e k)).

Lemma skip_step s e q f : first_pos (fun i => ~ in_comment s q i) q e f -> q < e -> char s is_cmt q -> q < f.
Proof.
  intros (F1 & _ & F3) Hq C. destruct (Nat.eq_dec f q) as [E|]; [|lia]. rewrite E in F3. exfalso. apply (F3 Hq).
  exists q. split; [lia|]. split; [exact C|lia].
Qed.

Lemma int_or_nl_loop_is m e : e <= flen m -> (e < flen m \/ slack m) -> is_cmt (byte_at (bytes m) e) = false ->
  forall fuel d, d <= e -> e - d < fuel -> is_cmt (byte_at (bytes m) d) = false ->
  exists k, int_or_nl_loop m e fuel d = Ok k /\ int_or_nl_from (bytes m) d e k.
Proof.
  intros He Hsl Hc. induction fuel as [|fuel IH]; intros d Hd Hf Hn; [lia|]. cbn [int_or_nl_loop].
  destruct (Nat.ltb_spec d e) as [Hl|Hl].
  2:{ exists d. split; [reflexivity|]. exists d. split; [split; [lia|split; lia]|]. right. split; [lia|reflexivity]. }
  rewrite (load_in m e He) by exact Hl. cbn [bind].
  destruct (is_digit (byte_at (bytes m) d) || is_nl (byte_at (bytes m) d)) eqn:E.
  { exists d. split; [reflexivity|]. exists d. split.
    - split; [lia|]. split; [lia|]. intros _. apply orb_prop in E as [E|E]; [left; exact E|right; left; exact E].
    - right. split; [unfold char; intros [_ X]; congruence|reflexivity]. }
  apply orb_false_elim in E as [E1 E2].
  rewrite (load_to m e He Hsl) by lia. cbn [bind].
  destruct (is_cmt (byte_at (bytes m) (S d))) eqn:E3.
  - assert (Sl : S d < e) by (destruct (Nat.eq_dec (S d) e) as [X|]; [rewrite X in E3; congruence|lia]).
    destruct (skip_comments_first m e He (S (e - S d)) (S d) ltac:(lia) ltac:(lia)) as (f & Ef & F).
    unfold skip_comments. rewrite Ef. cbn [bind]. pose proof (skip_step _ _ _ _ F Sl E3) as Hsf.
    exists (f - 1). split; [reflexivity|]. exists (S d). split.
    + split; [lia|]. split; [|intros _; right; right; exact E3].
      intros i Hi. replace i with d by lia. unfold char. intuition congruence.
    + left. split; [exact Sl|]. split; [exact E3|]. exists f. split; [exact F|lia].
  - destruct (IH (S d) ltac:(lia) ltac:(lia) E3) as (k & -> & q & (Q1 & Q2 & Q3) & K). exists k. split; [reflexivity|].
    exists q. split; [|exact K]. split; [lia|]. split; [|exact Q3].
    intros i Hi. destruct (Nat.eq_dec i d) as [->|]; [unfold char; intuition congruence|apply Q2; lia].
Qed.

Theorem C64_next_int_or_nl :
  forall (pg : nat) (s : list byte) (d e : nat), usable pg s d e ->
  is_cmt (byte_at s e) = false ->
  exists k, move_to_next_int_or_nl (mkMem s pg) e d = Ok k /\ next_int_or_nl s d e k.
Proof.
  intros pg s d e U Hc. destruct (usable_m pg s d e U) as [He Hsl]. destruct U as (_ & [Hd _] & _).
  change s with (bytes (mkMem s pg)) in Hc |- * at 2. set (m := mkMem s pg) in *. clearbody m. clear s.
  unfold move_to_next_int_or_nl, move_to_non_int.
  assert (A : (if d <? e then c <- load m d ;; Ok (is_digit c) else Ok false) = Ok ((d <? e) && is_digit (byte_at (bytes m) d))).
  { destruct (Nat.ltb_spec d e); [|reflexivity]. rewrite (load_in m e He) by assumption. reflexivity. }
  rewrite A. cbn [bind]. clear A.
  destruct (scan_is m e He is_digit d Hd) as (j & -> & F). cbn [bind]. pose proof F as (J1 & J2 & J3).
  assert (B : (if j <? e then c <- load m j ;; Ok (is_nl c) else Ok false) = Ok ((j <? e) && is_nl (byte_at (bytes m) j))).
  { destruct (Nat.ltb_spec j e); [|reflexivity]. rewrite (load_in m e He) by assumption. reflexivity. }
  rewrite B. cbn [bind]. clear B.
  assert (G : forall p, p <= e -> exists k,
    (c <- load m p ;; if is_cmt c then d' <- skip_comments m e p ;; Ok (d' - 1) else int_or_nl_loop m e (S (e - p)) p) = Ok k /\
    int_or_nl_from (bytes m) p e k).
  { intros p Hp. rewrite (load_to m e He Hsl) by exact Hp. cbn [bind]. destruct (is_cmt (byte_at (bytes m) p)) eqn:E.
    - assert (Pl : p < e) by (destruct (Nat.eq_dec p e) as [X|]; [rewrite X in E; congruence|lia]).
      destruct (skip_comments_first m e He (S (e - p)) p Hp ltac:(lia)) as (f & Ef & Ff).
      unfold skip_comments. rewrite Ef. cbn [bind]. pose proof (skip_step _ _ _ _ Ff Pl E) as Hsf.
      exists (f - 1). split; [reflexivity|]. exists p. split; [split; [lia|]; split; [lia|]; intros _; right; right; exact E|].
      left. split; [exact Pl|]. split; [exact E|]. exists f. split; [exact Ff|lia].
    - apply int_or_nl_loop_is; auto; lia. }
  destruct (Nat.ltb_spec j e) as [Hj|Hj]; cbn [andb].
  - destruct (is_nl (byte_at (bytes m) j)) eqn:N; cbn [andb].
    + destruct (Nat.ltb_spec d e) as [_|]; [|lia]. cbn [andb]. destruct (is_digit (byte_at (bytes m) d)) eqn:D.
      * exists j. split; [reflexivity|]. exists j. split; [exact F|]. left. split; [|split; [exact N|reflexivity]].
        destruct (Nat.eq_dec d j) as [X|]; [|lia]. specialize (J3 Hj). unfold not_char in J3. rewrite <- X in J3. congruence.
      * assert (Ej : d = j). { destruct (Nat.eq_dec d j) as [X|]; [exact X|]. exfalso. apply (J2 d); [lia|exact D]. }
        destruct (G (S j) ltac:(lia)) as (k & -> & K). exists k. split; [reflexivity|]. exists j. split; [exact F|].
        right. left. split; [exact Ej|]. split; [exact Hj|]. split; [exact N|exact K].
    + destruct (G j ltac:(lia)) as (k & -> & K). exists k. split; [reflexivity|]. exists j. split; [exact F|].
      right. right. split; [|exact K]. unfold char. intros [_ X]; congruence.
  - destruct (G j ltac:(lia)) as (k & -> & K). exists k. split; [reflexivity|]. exists j. split; [exact F|].
    right. right. split; [lia|exact K].
Qed.
Print Assumptions C64_next_int_or_nl.

(** ** Looking *)
Theorem C64_tests :
  forall (pg : nat) (s : list byte) (d e : nat), d <= e <= length s ->
  let m := mkMem s pg in
  (* only spaces and carriage returns before the newline, or before the end *)
  (exists b, at_end_of_line m e d = Ok b /\
     (b = true <-> exists k, d <= k <= e /\ (k < e -> byte_at s k = 10%Z) /\
                   forall i, d <= i < k -> byte_at s i = 32%Z \/ byte_at s i = 13%Z)) /\
  peek m e d = Ok (if d =? e then 0%Z else byte_at s d) /\
  (exists b, at_nl_or_eol m e d = Ok b /\ (b = true <-> d = e \/ In (byte_at s d) [10; 37; 35]%Z)) /\
  (forall t, exists b, at_str m e d t = Ok b /\ (b = true <-> text_at s t d e)).
Proof.
  intros pg s d e [Hd He] m. change (e <= flen m) in He.
  split; [|split; [|split]].
  - unfold at_end_of_line.
    destruct (scan_is m e He (fun c => negb (is_nl c) && ((c =? ch_sp) || (c =? ch_cr))%Z) d Hd) as (k & -> & K1 & K2 & K3). cbn [bind].
    change (bytes m) with s in K2, K3.
    assert (SP : forall i, d <= i < k -> byte_at s i = 32%Z \/ byte_at s i = 13%Z).
    { intros i Hi. specialize (K2 i Hi). unfold not_char in K2. apply Bool.not_false_is_true in K2. apply andb_prop in K2 as [_ X].
      unfold ch_sp, ch_cr in X. lia. }
    destruct (Nat.ltb_spec k e) as [Hk|Hk].
    + rewrite (load_in m e He) by exact Hk. cbn [bind]. change (bytes m) with s. eexists. split; [reflexivity|]. split.
      * intros N. exists k. split; [lia|]. split; [|exact SP]. intros _. unfold is_nl, ch_nl in N. lia.
      * intros (x & X1 & X2 & X3). specialize (K3 Hk). unfold not_char in K3.
        destruct (Nat.lt_trichotomy x k) as [L|[->|G]].
        -- specialize (X2 ltac:(lia)). destruct (SP x ltac:(lia)) as [Y|Y]; rewrite Y in X2; discriminate.
        -- specialize (X2 Hk). rewrite X2. reflexivity.
        -- destruct (X3 k ltac:(lia)) as [Y|Y]; rewrite Y in K3; discriminate.
    + exists true. split; [reflexivity|]. split; [|reflexivity]. intros _. exists k. split; [lia|]. split; [lia|exact SP].
  - unfold peek. destruct (Nat.eqb_spec d e); [reflexivity|]. apply (load_in m e He). lia.
  - unfold at_nl_or_eol. destruct (Nat.eqb_spec d e) as [->|N].
    + exists true. split; [reflexivity|]. split; auto.
    + rewrite (load_in m e He) by lia. cbn [bind]. change (bytes m) with s. eexists. split; [reflexivity|].
      unfold is_nl, is_cmt, ch_nl, ch_pct, ch_hash. cbn [In]. lia.
  - intros t. exact (at_str_text m e He t d).
Qed.
Print Assumptions C64_tests.

Theorem C64_looks :
  forall (pg : nat) (s : list byte) (d e : nat), usable pg s d e ->
  let m := mkMem s pg in
  (* the cursor does not move *)
  read_sign m d = Ok (if (byte_at s d =? 45)%Z then (-1)%Z else 1%Z) /\
  (* a zero that is not the first digit of a longer number; the byte behind it
     is looked at even if it lies behind the range *)
  (d < e -> exists b, at_zero m e d = Ok b /\ (b = true <-> byte_at s d = 48%Z /\ is_digit (byte_at s (S d)) = false)).
Proof.
  intros pg s d e U m. destruct (usable_m pg s d e U) as [He Hsl]. fold m in He, Hsl. destruct U as (_ & [Hd _] & _). split.
  - unfold read_sign. rewrite (load_to m e He Hsl) by exact Hd. reflexivity.
  - intros Hl. unfold at_zero. destruct (Nat.leb_spec (e + 1) d); [lia|].
    rewrite (load_to m e He Hsl) by lia. cbn [bind]. change (bytes m) with s. unfold ch_0.
    destruct (Z.eqb_spec (byte_at s d) 48) as [E|E]; cbn [negb].
    + rewrite (load_to m e He Hsl) by lia. cbn [bind]. change (bytes m) with s. eexists. split; [reflexivity|].
      destruct (is_digit (byte_at s (S d))); cbn; intuition congruence.
    + exists false. split; [reflexivity|]. split; [discriminate|]. intros [X _]. congruence.
Qed.
Print Assumptions C64_looks.

(** ** Stepping and shrinking: never beyond the end, never a larger range *)
Theorem C64_steps :
  forall d e n : nat, d <= e ->
  d <= advance e d n <= e /\
  (d + n <= e -> advance e d n = d + n) /\ (e <= d + n -> advance e d n = e) /\
  smaller_end e n <= e /\ smaller_end e n <= n /\ (smaller_end e n = e \/ smaller_end e n = n).
Proof. intros d e n H. unfold advance, smaller_end. destruct (Nat.ltb_spec n e); lia. Qed.
Print Assumptions C64_steps.

(** ** At the end of a file that fills its last page
    there is no byte behind the end to look at: the operations that look at the
    cursor before they compare it with the end are lost there. *)
Theorem C64_end :
  forall (pg : nat) (s : list byte), 0 < pg -> length s mod pg = 0 ->
  let m := mkMem s pg in let e := length s in
  move_to_first_int m e e = UB /\ move_to_next_int m e e = UB /\ move_to_next_signed_int m e e = UB /\
  move_to_next_int_or_nl m e e = UB /\ at_zero m e e = UB /\ read_sign m e = UB /\
  (* these compare first *)
  move_to_eol m e e = Ok e /\ move_to_non_int m e e = Ok e /\ move_to_fp m e e = Ok e /\ move_to_non_fp m e e = Ok e /\
  (forall c, move_to m c e e = Ok e) /\ skip_comments m e e = Ok e /\
  at_end_of_line m e e = Ok true /\ peek m e e = Ok 0%Z /\ at_nl_or_eol m e e = Ok true /\
  (forall t, at_str m e e t = Ok false).
Proof.
  intros pg s Hp Hm m e.
  assert (HL : load m e = UB).
  { unfold load. assert (X : nth_error (bytes m) e = None) by (apply nth_error_None; unfold m, e; cbn; lia). rewrite X.
    destruct (Nat.ltb_spec e (map_len m)) as [L|]; [|reflexivity]. exfalso. revert L. unfold map_len, flen, m; cbn [bytes page]. fold e in Hm |- *.
    pose proof (Nat.div_mod e pg ltac:(lia)) as D. rewrite Hm in D.
    assert (Q : (e + (pg - 1)) / pg = e / pg).
    { symmetry. apply (Nat.div_unique _ _ _ (pg - 1)); lia. }
    rewrite Q. rewrite (Nat.mul_comm (e / pg) pg). lia. }
  assert (SC : forall p, scan m p e e = Ok e) by (intros p; unfold scan; rewrite Nat.sub_diag; reflexivity).
  split. { unfold move_to_first_int, skip_comments_here. now rewrite HL. }
  split. { unfold move_to_next_int, move_to_non_int. rewrite SC. cbn [bind]. unfold move_to_first_int, skip_comments_here. now rewrite HL. }
  split. { unfold move_to_next_signed_int. now rewrite HL. }
  split. { unfold move_to_next_int_or_nl, move_to_non_int. rewrite Nat.ltb_irrefl, SC. cbn [bind]. rewrite Nat.ltb_irrefl. cbn [bind andb]. now rewrite HL. }
  split. { unfold at_zero. destruct (Nat.leb_spec (e + 1) e); [lia|]. now rewrite HL. }
  split. { unfold read_sign. now rewrite HL. }
  do 4 (split; [apply SC|]).
  split. { intros c. unfold move_to. rewrite Nat.ltb_irrefl. cbn [bind]. apply SC. }
  split. { unfold skip_comments. cbn [skip_comments_]. now rewrite Nat.ltb_irrefl. }
  split. { unfold at_end_of_line. rewrite SC. cbn [bind]. now rewrite Nat.ltb_irrefl. }
  split. { unfold peek. now rewrite Nat.eqb_refl. }
  split. { unfold at_nl_or_eol. now rewrite Nat.eqb_refl. }
  intros t. unfold at_str. destruct (Nat.leb_spec e (e + length t)); [reflexivity|lia].
Qed.
Print Assumptions C64_end.

(** ** Examples *)
Definition ex_t : list byte := chars "7 # 9" ++ [10%Z] ++ chars "% 3" ++ [10%Z] ++ chars "  42 -5" ++ [13; 10]%Z ++ chars "0 1".
Example ex_usable : usable 4096 ex_t 0 22. Proof. split; [lia|]. split; [vm_compute; lia|]. right. vm_compute. discriminate. Qed.
Example ex_next_int : move_to_next_int (mkMem ex_t 4096) 22 0 = Ok 12. Proof. reflexivity. Qed.
Example ex_signed : move_to_next_signed_int (mkMem ex_t 4096) 22 12 = Ok 15. Proof. reflexivity. Qed.
(* both comment lines are passed, and the cursor waits on the second newline *)
Example ex_int_or_nl : move_to_next_int_or_nl (mkMem ex_t 4096) 22 0 = Ok 9. Proof. reflexivity. Qed.
Example ex_eol : at_end_of_line (mkMem ex_t 4096) 22 17 = Ok true. Proof. reflexivity. Qed.
Example ex_not_eol : at_end_of_line (mkMem ex_t 4096) 22 14 = Ok false. Proof. reflexivity. Qed.
Example ex_zero : at_zero (mkMem ex_t 4096) 22 19 = Ok true. Proof. reflexivity. Qed.
Example ex_move : move_to (mkMem ex_t 4096) 35%Z 22 2 = Ok 22. Proof. reflexivity. Qed.
(** A range that is exactly the string does not start with it. *)
Example ex_at_str : at_str (mkMem (chars "PIGO") 4096) 4 0 (chars "PIGO") = Ok false /\ at_str (mkMem (chars "PIGO") 4096) 4 0 (chars "PIG") = Ok true.
Proof. split; reflexivity. Qed.
(** Without the hypothesis on the byte at the end of the range
    [move_to_next_int_or_nl] stops one byte short of the end, and
    [move_to_next_signed_int] moves beyond it. *)
Example ex_short : move_to_next_int_or_nl (mkMem (chars "1 % ") 4096) 2 0 = Ok 1. Proof. reflexivity. Qed.
Example ex_beyond : move_to_next_signed_int (mkMem (chars "1 -5") 4096) 2 2 = Ok 3. Proof. reflexivity. Qed.
