(* Concrete cases for the theorems about conversion, selection and assignment of
   moments of arrays (C120 to C124), and claims that fail. *)
From Coq Require Import String.
From Verif Require Import Base BaseLemmas ModelPush ModelKernels ModelIndex ModelAccum ModelAxes ModelState ModelParams ModelNd ModelWrap ModelMethods ModelMoments
  Spec SpecAxes SpecNd SpecMethods SpecMoments ProofArrays ProofMulti ProofNd Checks PropConvert PropAxes PropNd PropNdVals PropWrap ProofMethods PropMethods PropMethodsCheck
  ProofMoments PropMoments PropSelect PropAssign PropValsData.
Local Notation length := List.length (only parsing).
Local Open Scope string_scope.
Local Open Scope list_scope.

(* moments first: (1, 2, 5) and (4, 3, 7) *)
Definition em1 : tensor := Tensor [3; 2] (lz [1; 4; 2; 3; 5; 7]%Z).
(* two variables, orders 1 and 2, moments at axes 0 and 2:
   (1 2 3 | 7 8 9) and (4 5 6 | 10 11 12) *)
Definition em2 : tensor := Tensor [2; 2; 3] (lz [1; 2; 3; 4; 5; 6; 7; 8; 9; 10; 11; 12]%Z).
Lemma em1_axes : moment_axes [0%Z] [0] [1] em1.
Proof.
  split; [reflexivity|]. split; [apply Forall2_cons; [unfold is_axis; cbn; lia|apply Forall2_nil]|]. split; [repeat constructor; intros []|reflexivity].
Qed.
Lemma em2_axes : moment_axes [0; -1]%Z [0; 2] [1] em2.
Proof.
  split; [reflexivity|]. split; [repeat (apply Forall2_cons; [unfold is_axis; cbn; lia|]); apply Forall2_nil|].
  split; [repeat constructor; cbn; intros [E|[]] || intros []; discriminate|reflexivity].
Qed.

(* C120 *)
Example em_convertible : convertible 5 em1 [0] /\ convertible 5 em2 [0; 2].
Proof.
  split; (split; [cbn; auto|]); repeat (apply Forall_cons; [unfold shape_of; cbn; lia|]); apply Forall_nil.
Qed.
Example moments_type_ex :
  rteqb (moments_type_nd 5 "raw" [0%Z] false false em1) (Tensor [3; 2] (lz [1; 4; 2; 3; 9; 16]%Z)) = true /\
  rteqb (moments_type_nd 5 "central" [0%Z] false true em1) (Tensor [3; 2] (lz [1; 4; 2; 3; 1; -2]%Z)) = true /\
  rteqb (moments_type_nd 5 "raw" [0%Z] true false em1) (Tensor [2; 3] (lz [1; 2; 9; 4; 3; 16]%Z)) = true /\
  rteqb (moments_type_nd 5 "raw" [0; -1]%Z false false em2) (Tensor [2; 2; 3] (lz [1; 2; 7; 4; 5; 31; 7; 22; 90; 10; 61; 432]%Z)) = true /\
  central_or_raw "raw" (moment_entry em2 [0; 2] [1] [0]) [1; 2] = qz 90.
Proof. repeat split; vm_compute; reflexivity. Qed.
Example moments_type_round_trip_ex :
  rteqb (rbind (moments_type_nd 5 "raw" [0; -1]%Z false false em2) (moments_type_nd 5 "central" [0; -1]%Z false true)) em2 = true.
Proof. vm_compute. reflexivity. Qed.
(* an unknown direction is taken for "raw" *)
Example moments_type_other_names_ex :
  rteqb (moments_type_nd 5 "Central" [0%Z] false false em1) (Tensor [3; 2] (lz [1; 4; 2; 3; 9; 16]%Z)) = true.
Proof. vm_compute. reflexivity. Qed.
(* outside the table of binomials, or without an average *)
Example moments_type_outside_ex :
  Exists (fun a => shape_of em1 a < 2 \/ 2 < shape_of em1 a) [0] /\ moments_type_nd 1 "raw" [0%Z] false false em1 = Raise EMem.
Proof. split; [apply Exists_cons_hd; cbn; right; lia|vm_compute; reflexivity]. Qed.
(* order= asks for a memory layout, but with axes_to_end= it makes the call fail *)
Theorem order_is_layout_refuted : exists nmax mom_axes M L t to, moment_axes mom_axes M L t /\ convertible nmax t M /\
  (exists out, moments_type_nd nmax to mom_axes true false t = Ok out) /\ moments_type_nd nmax to mom_axes true true t = Raise EValue.
Proof.
  exists 5, [0%Z], [0], [1], em1, "raw". split; [exact em1_axes|]. split; [apply em_convertible|]. split.
  - destruct (moments_type_to_end 5 [0%Z] [0] [1] em1 em1_axes "raw" false (proj1 em_convertible) ltac:(discriminate)) as (out & E & _). now exists out.
  - apply (moments_type_order_refused 5 [0%Z] [0] [1] em1 em1_axes "raw"). cbn. discriminate.
Qed.

(* C121 *)
Definition em3 : tensor := Tensor [4; 2] (lz [1; 5; 2; 6; 3; 7; 4; 8]%Z).
Lemma em3_axes : moment_axes [(-2)%Z] [0] [1] em3.
Proof.
  split; [reflexivity|]. split; [apply Forall2_cons; [unfold is_axis; cbn; lia|apply Forall2_nil]|]. split; [repeat constructor; intros []|reflexivity].
Qed.
Example comoments_ex :
  resolved (2, -1)%Z (Z.of_nat (shape_of em3 0) - 1) (2, 1)%Z /\
  rteqb (moments_to_comoments_nd [2; -1]%Z (-2) em3) (Tensor [2; 3; 2] (lz [1; 2; 2; 3; 3; 4; 5; 6; 6; 7; 7; 8]%Z)) = true /\
  rteqb (rbind (moments_to_comoments_nd [2; -1]%Z (-2) em3) (comoments_to_moments_nd (fun _ => 0%Qc) [-2; -1]%Z)) (Tensor [2; 4] (lz [1; 2; 3; 4; 5; 6; 7; 8]%Z)) = true /\
  rteqb (comoments_to_moments_nd (fun _ => 0%Qc) [0; -1]%Z em2) (Tensor [2; 4] (lz [1; 2; 3; 9; 4; 5; 6; 12]%Z)) = true.
Proof. split; [split; [reflexivity|cbn; lia]|]. repeat split; vm_compute; reflexivity. Qed.
Example comoments_refused_ex :
  moments_to_comoments_nd [2; 2]%Z (-2) em3 = Raise EValue /\ moments_to_comoments_nd [2; 1; 1]%Z (-2) em3 = Raise EValue /\
  moments_to_comoments_nd [-1; -1]%Z (-2) em3 = Raise EValue.
Proof. repeat split; vm_compute; reflexivity. Qed.

(* C122 *)
Lemma em2_exists name qs at_ : In (name, (qs, at_)) (moment_names true [2; 3]) -> In name ["ave"; "cov"; "yave"; "yvar"; "xmom_0"; "ymom_1"] -> all_exist [2; 3] qs at_.
Proof.
  intros HN HI q V. cbn in HN. decompose [or] HN; clear HN; try contradiction;
    match goal with E : (_, _) = (_, _) |- _ => injection E as <- <- <- end;
    try (exfalso; cbn in HI; decompose [or] HI; try discriminate; contradiction);
    try (inversion V; subst; repeat (apply Forall2_cons; [lia|]); apply Forall2_nil);
    inversion V as [|? i ? q' Hi V']; subst; inversion V'; subst; cbn [hd nth];
    destruct i as [|[|[|i]]]; try lia; repeat (apply Forall2_cons; [cbn; lia|]); apply Forall2_nil.
Qed.
Example select_ex :
  all_positive (map (shape_of em2) [0; 2]) /\
  rteqb (select_moment_nd "cov" [0; -1]%Z true em2) (Tensor [2] (lz [8; 11]%Z)) = true /\
  rteqb (select_moment_nd "ave" [0; -1]%Z true em2) (Tensor [2; 2] (lz [7; 2; 10; 5]%Z)) = true /\
  rteqb (select_moment_nd "xmom_0" [0; -1]%Z true em2) (Tensor [2; 3] (lz [1; 2; 3; 4; 5; 6]%Z)) = true /\
  rteqb (select_moment_nd "ymom_1" [0; -1]%Z true em2) (Tensor [2; 2] (lz [2; 8; 5; 11]%Z)) = true /\
  rteqb (select_moment_nd "var" [0%Z] false em1) (Tensor [2; 1] (lz [5; 7]%Z)) = true /\
  rteqb (select_moment_nd "var" [0%Z] true em1) (Tensor [2] (lz [5; 7]%Z)) = true.
Proof. split; [cbn; repeat (apply Forall_cons; [lia|]); apply Forall_nil|]. repeat split; vm_compute; reflexivity. Qed.
Example select_refused_ex :
  ~ all_exist [2; 3] [] (fun _ => [2; 0]) /\ select_moment_nd "xvar" [0; -1]%Z true em2 = Raise EIndex /\
  select_moment_nd "yave" [0%Z] true em1 = Raise EValue /\ select_moment_nd "cov" [0; -3]%Z true em2 = Raise EValue.
Proof.
  split; [|repeat split; vm_compute; reflexivity]. intros H. specialize (H [] (Forall2_nil _)). inversion H. lia.
Qed.

(* C123 *)
Example assign_ex :
  fits_over ([2] ++ []) (Tensor [1; 2] (lz [50; 60]%Z)) /\ ~ fits_over ([2] ++ []) (Tensor [3] (lz [50; 60; 70]%Z)) /\
  rteqb (assign_moment_nd [("yave", Tensor [1; 2] (lz [50; 60]%Z))] [0; -1]%Z true em2) (Tensor [2; 2; 3] (lz [1; 50; 3; 4; 60; 6; 7; 8; 9; 10; 11; 12]%Z)) = true /\
  rteqb (assign_moment_nd [("weight", Tensor [] (lz [9]%Z)); ("var", Tensor [2] (lz [50; 60]%Z))] [0%Z] true em1) (Tensor [3; 2] (lz [9; 9; 2; 3; 50; 60]%Z)) = true /\
  assign_moment_nd [("yave", Tensor [3] (lz [50; 60; 70]%Z))] [0; -1]%Z true em2 = Raise EValue /\
  assign_moment_nd [("xvar", Tensor [] (lz [1]%Z))] [0; -1]%Z true em2 = Raise EIndex /\
  assign_moment_nd [("yvar", Tensor [] (lz [1]%Z))] [0%Z] true em1 = Raise EValue.
Proof.
  split; [|split].
  - split; [repeat constructor|]. intros k Hk. cbn in Hk. destruct k; [now left|lia].
  - intros (_ & F). destruct (F 0 ltac:(cbn; lia)) as [E|E]; cbn in E; discriminate.
  - repeat split; vm_compute; reflexivity.
Qed.
Example select_after_assign_ex :
  rteqb (rbind (assign_moment_nd [("yave", Tensor [] (lz [50]%Z))] [0; -1]%Z true em2) (select_moment_nd "yave" [0; -1]%Z true)) (Tensor [2] (lz [50; 50]%Z)) = true /\
  rteqb (rbind (select_moment_nd "ave" [0; -1]%Z true em2) (fun s => assign_moment_nd [("ave", s)] [0; -1]%Z true em2)) em2 = true.
Proof. split; vm_compute; reflexivity. Qed.

(* C124 *)
Definition ev_x : tensor := Tensor [1; 2] (lz [20; 30]%Z).
Definition ev_w : tensor := Tensor [2] (lz [3; 5]%Z).
Definition ev_y : tensor := Tensor [2; 1; 2] (lz [7; 8; 9; 10]%Z).
Example vals_to_data_fits_ex : mom_positive [2] /\ mom_positive [1; 2] /\ broadcasts (map tshape [ev_x; ev_w]) [1; 2] /\ broadcasts (map tshape [ev_x; ev_w; ev_y]) [2; 1; 2].
Proof.
  split; [split; [cbn; auto|repeat constructor]|]. split; [split; [cbn; auto|repeat constructor]|]. split; now apply broadcast_shapes_ok.
Qed.
Example vals_to_data_nd_ex :
  rteqb (vals_to_data_nd (IIter [2]%Z) MPNone ev_x ev_w []) (Tensor [1; 2; 3] (lz [3; 20; 0; 5; 30; 0]%Z)) = true /\
  rteqb (vals_to_data_nd (IIter [1; 1]%Z) MPNone ev_x ev_w [ev_y])
    (Tensor [2; 1; 2; 2; 2] (lz [3; 7; 20; 0; 5; 8; 30; 0; 3; 9; 20; 0; 5; 10; 30; 0]%Z)) = true /\
  vals_to_data_nd (IIter [1; 1]%Z) MPNone ev_x ev_w [] = Raise EValue /\
  vals_to_data_nd (IIter [2]%Z) MPNone ev_x (Tensor [3] (lz [1; 1; 1]%Z)) [] = Raise EValue.
Proof. repeat split; vm_compute; reflexivity. Qed.
Example push_of_vals_to_data_ex :
  ceqb (rbind (vals_to_data_nd (IIter [2]%Z) MPNone ev_w (Tensor [] [1%Qc]) []) (fun d => c_push_data (pusher1 5 2) (packer1 2) false cm2 d None))
    (Tensor [2; 3] [qz 3; fr 5 3; fr 26 9; qz 5; fr 13 5; fr 136 25]) = true.
Proof. vm_compute. reflexivity. Qed.
Example reduce_of_vals_to_data_ex :
  values_ok (packer1 2) (AInt 0) 1 exv one0 [] [3; 2] /\ names_axis (2 + 1) 1 (AInt 0) 0 /\
  rteqb (rbind (vals_to_data_nd (IIter [2]%Z) MPNone exv one0 []) (reduce_data_nd (pusher1 5 2) (packer1 2) [(-1)%Z] (Some [AInt 0]) false false))
    (Tensor [2; 3] [qz 3; fr 7 3; fr 14 9; qz 3; fr 70 3; fr 1400 9]) = true.
Proof.
  split; [|split; [unfold names_axis, is_axis; cbn; lia|vm_compute; reflexivity]]. split; [reflexivity|]. split; [|now apply broadcast_shapes_ok].
  split; [reflexivity|]. split; [exists 0; split; [unfold names_axis, is_axis; cbn; lia|reflexivity]|]. intros t [<-|[]]. split; [reflexivity|now left].
Qed.
(* mom_params= with other axes than the last ones: the values are still laid out
   with the moments last, and then written as if they lay elsewhere *)
Theorem vals_to_data_axes_refuted : exists x w, tensor_ok x /\ tensor_ok w /\
  (exists out, vals_to_data_nd (IIter [2]%Z) MPNone x w [] = Ok out /\ tshape out = [5; 3]) /\
  vals_to_data_nd (IIter [2]%Z) (MPArr 1 [0%Z]) x w [] = Raise EValue.
Proof.
  exists (Tensor [5] (lz [1; 2; 3; 4; 5]%Z)), one0. split; [reflexivity|]. split; [reflexivity|]. split; [|vm_compute; reflexivity].
  destruct (vals_to_data_entries [2] (Tensor [5] (lz [1; 2; 3; 4; 5]%Z)) one0 [] [5]) as (out & E & _ & S & _).
  - split; [cbn; auto|repeat constructor].
  - reflexivity.
  - now apply broadcast_shapes_ok.
  - now exists out.
Qed.
Example too_few_axes_ex :
  In "cov"%string (map fst (moment_names true [3; 3])) /\
  assign_moment_nd [("cov"%string, Tensor [] [0%Qc])] [-2; -1]%Z true (Tensor [3] (lz [1; 2; 3]%Z)) = Raise EIndex /\
  moment_axes [0; 2]%Z [0; 2] [1] (Tensor [0; 3; 0] []) /\ comoments_to_moments_nd (fun _ => 0%Qc) [0; 2]%Z (Tensor [0; 3; 0] []) = Raise EValue.
Proof.
  split; [cbn; tauto|]. split; [reflexivity|]. split; [|reflexivity].
  split; [reflexivity|]. split; [repeat constructor; unfold is_axis; cbn; lia|]. split; [repeat constructor; cbn; intuition discriminate|reflexivity].
Qed.
