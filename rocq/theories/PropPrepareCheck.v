(* Concrete cases for the arrays allocated for results (C193, C194). *)
From Verif Require Import Base BaseLemmas Checks ModelPush ModelKernels ModelIndex ModelAxes ModelState ModelParams ModelNd ModelPrepare Spec SpecAxes SpecNd PropAxes PropNd PropNdUse PropPrepare.

(* axis 1 of an array whose moments are axis 0: the array is made in the order of the
   calculation, (2, groups, moments), and then seen as (moments, groups, 2) *)
Example grouped_out_shape_ex : Forall2 (is_axis 3) [1; 0]%Z [1; 0] /\ NoDup [1; 0] /\ Forall2 (is_axis 4) [-3; 0; -2]%Z [1; 0; 2] /\ NoDup [1; 0; 2] /\
  grouped_out_shape [3; 7; 5] [0%Z] 1%Z 4 None = Ok [3; 4; 5] /\ grouped_out_shape [3; 7; 5] [0%Z] 1%Z 4 (Some OrderF) = Ok [3; 4; 5] /\
  grouped_out_shape [3; 7; 2; 5] [0; -2]%Z (-3)%Z 4 None = Ok [3; 4; 2; 5] /\ with_size [3; 7; 2; 5] 1 4 = [3; 4; 2; 5].
Proof.
  split; [repeat constructor; lia|]. split; [repeat constructor; cbn; lia|]. split; [repeat constructor; lia|]. split; [repeat constructor; cbn; lia|]. repeat split.
Qed.
Example values_out_shape_ex : let x := Tensor [2; 3] (lz [1; 2; 3; 4; 5; 6]%Z) in
  values_out_shape [x; x] [4] (-2)%Z (Some 7) None = Ok [7; 3; 4] /\ values_out_shape [x; x] [4] (-2)%Z (Some 7) (Some OrderC) = Ok [7; 3; 4] /\ values_out_shape [x; x] [4; 5] (-1)%Z (Some 7) None = Ok [2; 7; 4; 5] /\
  values_out_shape [x] [4] (-2)%Z None None = Ok [3; 4] /\ values_out_shape [x] [4] (-3)%Z (Some 7) None = Raise EValue.
Proof. repeat split. Qed.
Example resample_out_shape_ex : is_axis 3 (-2) 1 /\ resample_out_shape [3; 7; 5] (-2)%Z 4 (Some OrdF) = Some [3; 4; 5] /\ resample_out_shape [3; 7; 5] 1%Z 4 (Some OrdK) = None.
Proof. split; [split; lia|]. repeat split. Qed.
Example grouped_alloc_ex : let K := pusher1 5 1 in let P := packer1 1 in
  axis_of_moments P [0%Z] (AInt 1) 1 [0] ext1 /\ zmax [1; -1; 1]%Z = Ok 1%Z /\ length [1; -1; 1]%Z = shape_of ext1 1 /\
  forall order, In order [None; Some OrderC; Some OrderF] ->
  rteqb (reduce_data_grouped_alloc K P order [1; -1; 1]%Z (AInt 1) [0%Z] false ext1) (Tensor [2; 2; 2] (lz [0; 0; 6; 8; 0; 0]%Z ++ [fr 130 3; qz 50])) = true /\
  rteqb (reduce_data_grouped_alloc K P order [1; -1; 1]%Z (AInt 1) [0%Z] true ext1) (Tensor [2; 2; 2] [qz 0; qz 0; qz 6; fr 130 3; qz 0; qz 0; qz 8; qz 50]) = true /\
  reduce_data_grouped_alloc K P order [1; 1]%Z (AInt 1) [0%Z] true ext1 = Raise EValue.
Proof.
  intros K P. split; [apply columns_ex|]. split; [reflexivity|]. split; [reflexivity|].
  intros order [<-|[<-|[<-|[]]]]; repeat split; vm_compute; reflexivity.
Qed.
