(** * GraphSplit: the adjacency reader, up to the comparison with the header and
    after it *)
From Verif Require Import Base Reader Sched Coo Csr Graph.

(** ** Adjacency files: csr.impl.hpp:255-424, before and after the header is
    compared with what was read (csr.impl.hpp:413-423) *)
Record gbody := mkGbody { gb_n : Z; gb_m : Z; gb_rn : Z; gb_rm : Z; gb_st : gst; gb_max : Z }.
Definition graph_body (L O OS : ity) (m : mem) (d0 e : nat) (ch : gchoice) : res gbody :=
  let T := gc_T ch in
  d1 <- move_to_first_int m e d0 ;;
  '(read_n, d2) <- read_int m L e d1 ;;
  d3 <- move_to_next_int m e d2 ;;
  '(read_m, d4) <- read_int m O e d3 ;;
  d5 <- move_to_eol m e d4 ;;
  d6 <- move_to_next_int m e d5 ;;
  chunks <- mapM (gr_chunk m d6 e T) (seq 0 T) ;;
  p1 <- mapM (fun c => gr_count m (snd c) (S (snd c - fst c)) (fst c) 0 0 false) chunks ;;
  hz <- found_zero (map snd p1) (gc_hz ch) ;;
  let base := if (hz : bool) then 0 else 1 in
  let nls := map (fun r => fst (fst r)) p1 in
  let ints := map (fun r => snd (fst r)) p1 in
  let m_ := wrap O (Z.of_nat (sum_nat ints)) in
  let n_ := wrap L (Z.of_nat (base + sum_nat nls)) in
  '(en, w, off) <- csr_alloc (W:=unit) L false n_ m_ ;;
  off <- zset 0 0 off ;;
  off <- (if hz : bool then Ok off else zset 1 0 off) ;;
  off <- zset n_ (wrap OS m_) off ;;
  p2 <- mapM (fun q => let '(c, (o, i)) := q in
                gr_set L O n_ m (snd c) (S (snd c - fst c)) (fst c) (wrap L (Z.of_nat o)) (wrap O (Z.of_nat i)) 0)
          (combine chunks (combine (prefix_sums base nls) (prefix_sums 0 ints))) ;;
  s <- run (gexec OS) (gc_set ch) (map fst p2) (mkGst off en) ;;
  Ok (mkGbody n_ m_ read_n read_m s (fold_left Z.max (map snd p2) 0%Z)).
Definition graph_check {W : Type} (L O : ity) (b : gbody) : res (csr W) :=
  m2 <- twice O (gb_rm b) ;;
  if negb (gb_m b =? m2)%Z && negb (gb_m b =? gb_rm b)%Z then Throw EError else
  if (gb_n b <? gb_rn b)%Z then Throw EError else
  ncols <- arith L (gb_max b + 1)%Z ;;
  Ok (mkCsr (g_off (gb_st b)) (g_end (gb_st b)) [] (gb_rn b) (gb_m b) (Some (gb_n b)) (Some ncols)).

Lemma bind_assoc_ {A B C} (r : res A) (f : A -> res B) (g : B -> res C) :
  bind (bind r f) g = bind r (fun a => bind (f a) g).
Proof. destruct r; reflexivity. Qed.

Lemma bind_ext_ {A B} (r : res A) (f g : A -> res B) : (forall a, f a = g a) -> bind r f = bind r g.
Proof. intros H. destruct r; cbn; auto. Qed.

Lemma csr_alloc_unit {W} L n m :
  csr_alloc (W:=W) L false n m =
  bind (csr_alloc (W:=unit) L false n m) (fun r => Ok (fst (fst r), [], snd r)).
Proof.
  unfold csr_alloc. repeat (rewrite ?bind_assoc_; cbn [bind]; apply bind_ext_; intros). reflexivity.
Qed.

Lemma csr_alloc_w {W} L n m e (w : list (option W)) o : csr_alloc L false n m = Ok (e, w, o) -> w = [].
Proof.
  unfold csr_alloc. destruct (alloc m); cbn [bind]; try discriminate.
  destruct (plus1 L n); cbn [bind]; try discriminate.
  destruct (alloc a0); cbn [bind]; try discriminate. congruence.
Qed.

Lemma read_graph_split {W} L O OS m d0 e ch :
  read_graph (W:=W) L O OS m d0 e ch = bind (graph_body L O OS m d0 e ch) (graph_check L O).
Proof.
  unfold read_graph, graph_body.
  do 4 (rewrite bind_assoc_; apply bind_ext_; intros; repeat match goal with p : (_ * _)%type |- _ => destruct p end).
  do 2 (rewrite bind_assoc_; apply bind_ext_; intros; repeat match goal with p : (_ * _)%type |- _ => destruct p end).
  do 3 (rewrite bind_assoc_; apply bind_ext_; intros).
  rewrite csr_alloc_unit, !bind_assoc_. apply bind_ext_. intros [[en w] off]. cbn [bind fst snd].
  do 5 (rewrite bind_assoc_; apply bind_ext_; intros).
  cbn [bind]. unfold graph_check. cbn [gb_n gb_m gb_rn gb_rm gb_st gb_max]. reflexivity.
Qed.

