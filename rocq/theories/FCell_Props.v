(** C197: cells in binary64. *)
From Coq Require Import ZArith Reals Bool List.
From Flocq Require Import Core IEEE754.BinarySingleNaN.
From Verif Require Import Base Float_Model Float_Spec FGrid_Model FGrid_Spec FGrid_Proofs FCell_Model FCell_Spec FCell_Proofs.
Open Scope R_scope.

(** C197: every cell has the id of the point of the same row, which lies inside it, off its edges; and the cells tile all of the
    globe up to half a step from its eastern and northern ends, each place in exactly one cell. *)
Theorem c197_cells : forall d, usual_distance d ->
  Forall2 (fun c p => c_id c = f_id p /\ inside c p) (f_generate_cells d) (f_generate_points d)
  /\ exists e n, tiles (f_generate_cells d) e n
     /\ Rabs (e - 180) <= val (f_step d) / 2 + / 1000000000000 /\ Rabs (n - 90) <= val (f_step d) / 2 + / 1000000000000.
Proof. exact distance_lemma. Qed.
Print Assumptions c197_cells.
(** The same for different steps in longitude and latitude. *)
Theorem c197_points_inside : forall thi thj, usual_step thi -> usual_step thj ->
  Forall2 (fun c p => c_id c = f_id p /\ inside c p) (f_gen_cells thi thj) (f_gen_points thi thj).
Proof. exact points_inside. Qed.
Print Assumptions c197_points_inside.
Theorem c197_tiles : forall thi thj, usual_step thi -> usual_step thj -> exists e n, tiles (f_gen_cells thi thj) e n
  /\ Rabs (e - 180) <= val thi / 2 + / 1000000000000 /\ Rabs (n - 90) <= val thj / 2 + / 1000000000000.
Proof. exact cells_tile. Qed.
Print Assumptions c197_tiles.
Example c197_witness : usual_distance d_plain /\ exists c, In c (f_generate_cells d_plain).
Proof. exact c197_witness_lemma. Qed.
