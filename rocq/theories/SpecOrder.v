(** * SpecOrder: the first data line of a tensor file

    Uses the character classes and gaps of [Spec] and [SpecTensor] only. *)
From Verif Require Import Base Spec SpecTensor.

(** A number: a digit, then digits and points. *)
Definition number (s : list byte) : Prop :=
  exists c run, s = c :: run /\ is_digit c = true /\ Forall (fun b => is_digit b = true \/ b = ch_dot) run.

(** Numbers, each but the first with the text before it. *)
Definition words_text (ws : list (list byte * list byte)) : list byte :=
  concat (map (fun p => fst p ++ snd p) ws).
Definition words (ws : list (list byte * list byte)) : Prop :=
  match ws with
  | [] => False
  | w :: ws' => fst w = [] /\ Forall (fun p => spacing (fst p)) ws'
  end /\ Forall (fun p => number (snd p)) ws.

(** What follows the last number: after any spaces, some text without digits
    (a carriage return, a tab, letters), then possibly a comment.  Compare
    [plain_tail]. *)
Definition leftover (s : list byte) : Prop :=
  exists sp c j t, s = sp ++ c :: j ++ t /\ Forall (fun b => b = ch_space) sp /\
    c <> ch_space /\ (sp = [] -> c <> ch_dot) /\ Forall sep_char (c :: j) /\
    match t with [] => True | b :: _ => is_cmt b = true end.
