(** * ElExamples: concrete files that meet the hypotheses of the edge-list
    theorems *)

From Coq Require Import String Ascii.
From Verif Require Import Base Spec SpecFp Coo WeightLemmas ElSpec.
Open Scope list_scope.

Definition bs (s : string) : list byte :=
  map (fun a => Z.of_nat (nat_of_ascii a)) (list_ascii_of_string s).
Notation length := List.length.

(** "# a comment", an empty line, then three lines: "1 2 x", "30<TAB>4",
    "5 5<CR>", a comment line between the second and the third, and a comment at
    the end of the file without a newline. *)
Definition ex_el : el_file :=
  mkEl (bs "# a comment" ++ [ch_nl; ch_nl])
    [ mkLine (bs "1") (bs " ") (bs "2") (bs " x") [];
      mkLine (bs "30") [9%Z] (bs "4") [] (bs "% 7 7" ++ [ch_nl]);
      mkLine (bs "5") (bs " ") (bs "5") [ch_cr] (bs "#end") ].

Ltac digits_t := split; [discriminate|repeat constructor].

Lemma ex_el_wf : wf_el ex_el.
Proof.
  split; cbn [ex_el el_lines el_head].
  - apply (gap_cmt _ ch_hash (bs " a comment") [ch_nl]); [reflexivity|repeat constructor|].
    apply gap_junk; [reflexivity|reflexivity|apply gap_nil].
  - repeat split; try digits_t; try (repeat constructor; fail); try discriminate.
Qed.

Example ex_el_pairs : el_pairs ex_el = [(1, 2); (30, 4); (5, 5)]%Z.
Proof. reflexivity. Qed.

Lemma ex_el_fit : labels_fit (imax u8 - 1) ex_el.
Proof. unfold labels_fit. rewrite ex_el_pairs. repeat constructor; cbn; lia. Qed.

Lemma ex_el_off : off_page 16 (el_text ex_el).
Proof. split; [lia|]. vm_compute. discriminate. Qed.

(** The same entries in another layout. *)
Definition ex_el2 : el_file :=
  mkEl [] [ mkLine (bs "1") (bs " ") (bs "2") [] [];
            mkLine (bs "030") (bs ", ") (bs "4") [] [];
            mkLine (bs "5") (bs " ") (bs "5") [] [] ].
Lemma ex_el2_wf : wf_el ex_el2.
Proof.
  split; cbn [ex_el2 el_lines el_head]; [apply gap_nil|].
  repeat split; try digits_t; try (repeat constructor; fail); try discriminate; apply gap_nil.
Qed.
Example ex_el2_pairs : el_pairs ex_el2 = el_pairs ex_el.
Proof. reflexivity. Qed.
Lemma ex_el2_off : off_page 16 (el_text ex_el2).
Proof. split; [lia|]. vm_compute. discriminate. Qed.

(** With signed weights. *)
Definition ex_elw : el_file :=
  mkEl (bs "% w" ++ [ch_nl])
    [ mkLine (bs "1") (bs " ") (bs "2") (bs " -12") [];
      mkLine (bs "3") (bs " ") (bs "0") (bs " 7") [];
      mkLine (bs "2") (bs " ") (bs "2") (bs " +4 ") [] ].
Lemma ex_elw_wf : wf_el ex_elw.
Proof.
  split; cbn [ex_elw el_lines el_head].
  - apply (gap_cmt _ ch_pct (bs " w") []); [reflexivity|repeat constructor|apply gap_nil].
  - repeat split; try digits_t; try (repeat constructor; fail); try discriminate; apply gap_nil.
Qed.
Lemma ex_elw_weights : weights_are (WSigned i32) ex_elw [-12; 7; 4]%Z.
Proof.
  assert (Hsp : sgn_sep (bs " ")) by (split; [split; [discriminate|repeat constructor]|repeat constructor]).
  assert (Hr : rest []) by (split; [constructor|exact Logic.I]).
  assert (Hr1 : rest [ch_sp]) by (split; [repeat constructor|reflexivity]).
  repeat constructor; cbn [wpost ex_elw map l_post el_lines].
  - apply (post_signed_minus (bs " ") (bs "12") [] Hsp); [digits_t|exact Hr].
  - cbn; lia.
  - cbn; lia.
  - apply (post_signed_pos (bs " ") (bs "7") [] Hsp); [digits_t|exact Hr].
  - cbn; lia.
  - cbn; lia.
  - apply (post_signed_plus (bs " ") (bs "4") [ch_sp] Hsp); [digits_t|exact Hr1].
  - cbn; lia.
  - cbn; lia.
Qed.
Lemma ex_elw_fit : labels_fit (imax u32 - 1) ex_elw.
Proof.
  assert (E : el_pairs ex_elw = [(1, 2); (3, 0); (2, 2)]%Z) by reflexivity.
  unfold labels_fit. rewrite E. repeat constructor; cbn; lia.
Qed.
Lemma ex_elw_off : off_page 4096 (el_text ex_elw).
Proof. split; [apply Nat.ltb_lt; vm_compute; reflexivity|]. vm_compute. discriminate. Qed.

(** With floating-point weights: "1 2 -1.50e+2", "0 1 .5". *)
Definition ex_elf : el_file :=
  mkEl [] [ mkLine (bs "1") (bs " ") (bs "2") (bs " -1.50e+2") [];
            mkLine (bs "0") (bs " ") (bs "1") (bs " .5") [] ].
Lemma ex_elf_wf : wf_el ex_elf.
Proof.
  split; cbn [ex_elf el_lines el_head]; [apply gap_nil|].
  repeat split; try digits_t; try (repeat constructor; fail); try discriminate; apply gap_nil.
Qed.
Lemma ex_elf_weights F : exists ws, weights_are (WFloat F) ex_elf ws.
Proof.
  exists [fp_value F (mkFplit SMinus (bs "1") (Some (bs "50")) (Some (ch_e, SPlus, bs "2")));
          fp_value F (mkFplit SNone [] (Some (bs "5")) None)].
  assert (A : all_digits (bs "1") /\ all_digits (bs "50") /\ all_digits (bs "5")) by (repeat split; repeat constructor).
  destruct A as (A1 & A2 & A3).
  constructor; [|constructor; [|constructor]].
  - eexists; split; [|reflexivity].
    apply (post_float_intro (bs " ") (mkFplit SMinus (bs "1") (Some (bs "50")) (Some (ch_e, SPlus, bs "2"))) []);
      [repeat constructor| |constructor|exact Logic.I].
    split; [exact A1|]. split; [exact A2|]. split; [left; discriminate|]. split; [left; reflexivity|digits_t].
  - eexists; split; [|reflexivity].
    apply (post_float_intro (bs " ") (mkFplit SNone [] (Some (bs "5")) None) []);
      [repeat constructor| |constructor|exact Logic.I].
    split; [constructor|]. split; [exact A3|]. split; [right; eexists; split; [reflexivity|discriminate]|exact Logic.I].
Qed.
