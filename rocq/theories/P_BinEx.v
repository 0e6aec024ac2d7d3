(** * Concrete cases for the properties of binary files *)

From Coq Require Import String.
From Verif Require Import Base Reader Sched SchedLemmas Coo Ascii Csr SpecCsr CsrLemmas Codec Bin SpecBin BinLemmas BinSave BinLoad Graph Load Tensor BinOpen BinBad P_Bin P_BinBad.
Open Scope list_scope.

(** Two- and three-thread teams, interleaved; an interleaved conversion. *)
Definition ex_teams : lchoice :=
  mkLchoice 2 [1; 0; 1] (2, [1; 0; 0; 1]) (3, [2; 0; 2; 1]) (2, [1; 1; 1])
    (mkGchoice 2 [] []) (mkChoice 1 0 [[0; 1; 2]] [[0; 1; 2]] [] [] []) [[1]; [0; 2]] [1; 0].
Definition ex_wm : option (wmode Z) := Some (mkWmode _ (wr_signed i16) (cint i16)).
Definition ex_fn : list byte := chars "a.b".

Definition ex_coo : coo Z :=
  mkCoo (map Some [2; 0; 200])%Z (map Some [1; 7; 0])%Z (map Some [-5; 300; 0])%Z (Some 201)%Z (Some 201)%Z (Some 8)%Z 3.
Definition ex_csr_ : csr Z :=
  mkCsr (map Some [0; 2; 2; 3])%Z (map Some [2; 0; 1])%Z (map Some [-5; 300; 0])%Z 3 3 (Some 3)%Z (Some 3)%Z.
Definition ex_tensor : tensor Z := mkTensor (map Some [1; 2; 3; 4; 5; 260])%Z (map Some [-1; 8])%Z 3 2.

Ltac conc := repeat first [split | reflexivity | constructor]; try (eexists; split; reflexivity); try lia; try discriminate.

Ltac splits := match goal with |- wfit _ _ _ => idtac | |- _ /\ _ => split; splits | _ => idtac end.
Lemma ex_wfit l : Forall (fun z => inrange i16 z = true) l -> wfit (wbin ex_wm) (fun z => inrange i16 z = true) (map Some l).
Proof.
  intros H. split; [apply cint_faithful; cbn; tauto|]. split; [cbn; lia|]. induction H; cbn [map]; constructor; eauto.
Qed.

Example C15_applies :
  coo_shape (wbin ex_wm) ex_coo /\ coo_full u8 u16 (wbin ex_wm) (fun z => inrange i16 z = true) ex_coo /\ teams ex_teams /\
  exists w s, coo_save u8 u16 (wbin ex_wm) ex_coo (2, [1; 0]) (2, []) (3, [2; 2]) = Ok w /\ contents w s /\ length s = 30 /\
    coo_open u8 u16 ex_wm (mkFlags true false true) 64 ex_fn (Some s) AUTO ex_teams = Ok ex_coo.
Proof.
  split; [conc|]. split. { unfold coo_full. splits; try reflexivity; try (eexists; split; reflexivity); try (repeat constructor; eexists; split; reflexivity). apply ex_wfit. repeat constructor. }
  split; [unfold teams, ex_teams; cbn; lia|].
  eexists _, [80; 73; 71; 79; 45; 67; 79; 79; 45; 118; 49; 1; 2; 201; 8; 201; 3; 0; 2; 0; 200; 1; 7; 0; 251; 255; 44; 1; 0; 0]%Z.
  split; [vm_compute; reflexivity|]. split; [reflexivity|]. split; [reflexivity|]. vm_compute. reflexivity.
Qed.

Example C16_C18_applies :
  csr_shape (wbin ex_wm) ex_csr_ /\ csr_full u8 u8 (wbin ex_wm) (fun z => inrange i16 z = true) ex_csr_ /\ room u8 (cs_n ex_csr_) /\
  Forall (fit u8) (cs_off ex_csr_) /\
  exists w s, csr_save u8 u8 (wbin ex_wm) ex_csr_ (2, [1; 0]) (2, []) (3, [2; 2]) = Ok w /\ contents w s /\
    csr_open u8 u8 ex_wm 64 ex_fn (Some s) AUTO ex_teams = Ok ex_csr_ /\
    coo_open u8 u8 ex_wm no_flags 64 ex_fn (Some s) AUTO ex_teams =
      Ok (mkCoo (map Some [0; 0; 2])%Z (map Some [2; 0; 1])%Z (map Some [-5; 300; 0])%Z (Some 3)%Z None None 3) /\
  exists w2 s2, digraph_save u8 u8 (wbin ex_wm) (ex_csr_, ex_csr_) (1, []) (2, [1]) (3, []) (2, []) (2, []) (2, [1; 1]) = Ok w2 /\ contents w2 s2 /\
    length s2 = 15 + 2 * length s /\
    digraph_open u8 u8 ex_wm 64 ex_fn (Some s2) AUTO ex_teams ex_teams (lc_conv ex_teams) (lc_conv ex_teams) = Ok (ex_csr_, ex_csr_).
Proof.
  split; [conc|]. split. { unfold csr_full. splits; try reflexivity; try (eexists; split; reflexivity); try (repeat constructor; eexists; split; reflexivity). apply ex_wfit. repeat constructor. }
  split; [split; [vm_compute; discriminate|left; reflexivity]|]. split; [repeat constructor; eexists; split; reflexivity|].
  eexists _, ([80; 73; 71; 79; 45; 67; 83; 82; 45; 118; 50; 1; 1; 3; 3; 3; 3; 0; 2; 2; 3; 2; 0; 1; 251; 255; 44; 1; 0; 0]%Z).
  split; [vm_compute; reflexivity|]. split; [reflexivity|]. split; [vm_compute; reflexivity|]. split; [vm_compute; reflexivity|].
  eexists _, (chars "PIGO-DiGraph-v1" ++ [80; 73; 71; 79; 45; 67; 83; 82; 45; 118; 50; 1; 1; 3; 3; 3; 3; 0; 2; 2; 3; 2; 0; 1; 251; 255; 44; 1; 0; 0]%Z ++
    [80; 73; 71; 79; 45; 67; 83; 82; 45; 118; 50; 1; 1; 3; 3; 3; 3; 0; 2; 2; 3; 2; 0; 1; 251; 255; 44; 1; 0; 0]%Z).
  split; [vm_compute; reflexivity|]. split; [vm_compute; reflexivity|]. split; [reflexivity|]. vm_compute. reflexivity.
Qed.

Example C17_applies :
  tensor_shape (wbin ex_wm) ex_tensor /\ tensor_full u16 u8 (wbin ex_wm) (fun z => inrange i16 z = true) ex_tensor /\
  (te_order ex_tensor * te_m ex_tensor <= imax u8)%Z /\
  exists w s, tensor_save u16 u8 (wbin ex_wm) ex_tensor (2, [1; 0]) (2, []) = Ok w /\ contents w s /\
    tensor_open u16 u8 ex_wm 64 ex_fn (Some s) AUTO ex_teams = Ok ex_tensor.
Proof.
  split; [conc|]. split. { unfold tensor_full. splits; try reflexivity; try (repeat constructor; eexists; split; reflexivity). apply ex_wfit. repeat constructor. }
  split; [vm_compute; discriminate|].
  eexists _, (chars "PIGO-Tensor-2" ++ [2; 1; 2; 3; 2; 1; 0; 2; 0; 3; 0; 4; 0; 5; 0; 4; 1; 255; 255; 8; 0]%Z).
  split; [vm_compute; reflexivity|]. split; [vm_compute; reflexivity|]. vm_compute. reflexivity.
Qed.

(** The file of [C15_applies], read with a wider label type. *)
Example C19_applies :
  coo_open u16 u16 ex_wm no_flags 64 ex_fn
    (Some [80; 73; 71; 79; 45; 67; 79; 79; 45; 118; 49; 1; 2; 201; 8; 201; 3; 0; 2; 0; 200; 1; 7; 0; 251; 255; 44; 1; 0; 0]%Z) AUTO ex_teams = Throw EError /\
  ~ begins (chars "PIGO-COO-v2xyz") (chars "PIGO-COO-v1") /\ begins (chars "PIGO-COO-v2xyz") (chars "PIGO") /\
  coo_open u16 u16 ex_wm no_flags 64 ex_fn (Some (chars "PIGO-COO-v2xyz")) AUTO ex_teams = Throw EError.
Proof.
  split; [vm_compute; reflexivity|]. split; [intros (b & r & E); vm_compute in E; discriminate|]. split; [|vm_compute; reflexivity].
  eexists _, _. vm_compute. reflexivity.
Qed.

(** Detection goes by the suffix when there is no magic string, also for a file
    that carries the Matrix Market banner. *)
Example C21_applies :
  exists f, open_read 64 (chars "m.mtx.txt") 0 (Some (chars "%%MatrixMarket matrix coordinate")) = Ok f /\ guess f = Ok EDGE_LIST.
Proof. eexists. split; reflexivity. Qed.

Example C27_applies : exists r w, convert_csr u8 no_flags true ex_csr_ [[2]; [1; 0]] [1; 0; 1; 1; 0] = Ok r /\ coo_shape (wbin ex_wm) r /\
  coo_save u8 u8 (wbin ex_wm) r (2, [1]) (2, []) (1, []) = Ok w /\ nth_error (wf_data w) 13 = Some (None, 1).
Proof. eexists _, _. split; [vm_compute; reflexivity|]. split; [conc|]. split; vm_compute; reflexivity. Qed.

(** 8-bit labels with 32-bit ordinals; two rows. *)
Definition ex_csr2 : csr Z := mkCsr (map Some [0; 1; 2])%Z (map Some [1; 0])%Z [] 2 2 (Some 2)%Z (Some 2)%Z.
Example C46_applies :
  csr_shape (wbin (W:=Z) None) ex_csr2 /\ csr_full u8 u32 (wbin (W:=Z) None) (fun _ => True) ex_csr2 /\ room u8 (cs_n ex_csr2) /\
  exists w s, csr_save u8 u32 (wbin (W:=Z) None) ex_csr2 (2, [1; 0]) (2, []) (1, []) = Ok w /\ contents w s /\
    csr_open u8 u32 (W:=Z) None 64 ex_fn (Some s) AUTO ex_teams = Ok ex_csr2 /\
    coo_open u8 u32 (W:=Z) None no_flags 64 ex_fn (Some s) AUTO ex_teams = UB.
Proof.
  split; [conc|]. split. { unfold csr_full. splits; try reflexivity; try (eexists; split; reflexivity); try (repeat constructor; eexists; split; reflexivity). }
  split; [split; [vm_compute; discriminate|left; reflexivity]|].
  eexists _, (chars "PIGO-CSR-v2" ++ [1; 4; 2; 2; 0; 0; 0; 2; 2; 0; 0; 0; 0; 1; 0; 0; 0; 2; 0; 0; 0; 1; 0]%Z).
  split; [vm_compute; reflexivity|]. split; [vm_compute; reflexivity|]. split; vm_compute; reflexivity.
Qed.

(** The file of [C15_applies] cut after 22 of its 30 bytes: zeros are read for
    the missing ones when pages have 32 bytes; the load leaves the mapping when
    they have 11. *)
Example C47_applies :
  let b := [80; 73; 71; 79; 45; 67; 79; 79; 45; 118; 49; 1; 2; 201; 8; 201; 3; 0; 2; 0; 200; 1; 7; 0; 251; 255; 44; 1; 0; 0]%Z in
  coo_layout u8 u16 (wbin ex_wm) ex_coo = map Some b /\
  coo_open u8 u16 ex_wm no_flags 32 ex_fn (Some (firstn 22 b)) AUTO ex_teams =
    Ok (mkCoo (map Some [2; 0; 200])%Z (map Some [1; 0; 0])%Z (map Some [0; 0; 0])%Z (Some 201)%Z (Some 201)%Z (Some 8)%Z 3) /\
  coo_open u8 u16 ex_wm no_flags 11 ex_fn (Some (firstn 22 b)) AUTO ex_teams = UB.
Proof. cbv zeta. split; [vm_compute; reflexivity|]. split; vm_compute; reflexivity. Qed.

(** Order 65536 and 65536 entries with 32-bit ordinals. *)
Example C48_applies :
  inrange u32 65536 = true /\ (imax u32 < 65536 * 65536)%Z /\
  tensor_open u8 u32 (W:=Z) None 64 ex_fn
    (Some (chars "PIGO-Tensor-2" ++ [ibits u8 / 8; ibits u32 / 8]%Z ++ [] ++ le (isize u32) 65536 ++ le (isize u32) 65536 ++ [7]%Z)) AUTO ex_teams = UB.
Proof.
  split; [reflexivity|]. split; [reflexivity|]. apply (C48_tensor_count_overflow u8 u32 (W:=Z) None); try reflexivity; try (cbn; tauto); try lia; try discriminate.
  unfold teams, ex_teams; cbn; lia.
Qed.
