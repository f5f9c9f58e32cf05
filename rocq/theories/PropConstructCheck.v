(* Concrete cases for the theorems about making objects and reading their
   statistics (C127 to C132), and a claim that fails. *)
From Coq Require Import String.
From Verif Require Import Base BaseLemmas ModelPush ModelPushCov ModelConvert ModelKernels ModelIndex ModelAccum ModelAxes ModelState ModelParams ModelNd ModelWrap ModelMethods ModelMoments ModelConstruct
  Spec SpecAxes SpecNd SpecMethods SpecMoments ProofArrays ProofMulti ProofNd Checks PropConvert PropAxes PropNd PropNdVals PropNdValsUse PropLabelled PropWrap ProofMethods PropMethods PropMethodsUse PropMethodsCheck
  ProofMoments PropMoments PropSelect PropAssign PropMomentsCheck PropConstruct PropConstructUse PropConstructStat PropConstructVals PropConstructMake.
Local Notation length := List.length (only parsing).
Local Open Scope string_scope.
Local Open Scope list_scope.

(* orders (1, 1) of two variables at two positions *)
Definition cm22 : cmarray := CM (Tensor [2; 2; 2] (lz [2; 3; 5; 7; 4; 1; 2; 6]%Z)) (AP (Some 2%Z) (Some [-2; -1]%Z)).
Lemma cm22_holds : holds cm22 [2] [2; 2].
Proof. split; [reflexivity|]. split; [reflexivity|]. split; [now right|]. split; [repeat apply Forall_cons; try apply Forall_nil; lia|reflexivity]. Qed.

(* C127 *)
Example object_select_ex :
  rteqb (c_weight cm2) (Tensor [2] (lz [2; 4]%Z)) = true /\ rteqb (c_mean cm2 true) (Tensor [2] (lz [1; 2]%Z)) = true /\
  rteqb (c_mean cm2 false) (Tensor [2; 1] (lz [1; 2]%Z)) = true /\ rteqb (c_var cm2 true) (Tensor [2] (lz [3; 5]%Z)) = true /\
  rteqb (c_mean cm22 true) (Tensor [2; 2] (lz [5; 3; 2; 1]%Z)) = true /\ rteqb (c_cov cm22) (Tensor [2] (lz [7; 6]%Z)) = true /\
  c_var cm22 true = Raise EIndex /\ c_select_moment cm2 "skew" true = Raise EValue.
Proof. repeat split; vm_compute; reflexivity. Qed.
Example object_select_missing_ex : In ("var", ([2], fun q => nth (hd 0 q) [[2; 0]; [0; 2]] [])) (moment_names true [2; 2]) /\
  ~ all_exist [2; 2] [2] (fun q => nth (hd 0 q) [[2; 0]; [0; 2]] []).
Proof.
  split; [cbn; auto|]. intros X. specialize (X [0] ltac:(constructor; [lia|constructor])). inversion X as [|? ? ? ? Y _]; subst. lia.
Qed.
Example object_assign_ex :
  ceqb (c_assign_moment cm2 [("weight", Tensor [2] (lz [7; 8]%Z)); ("var", number (qz 9))] true) (Tensor [2; 3] (lz [7; 1; 9; 8; 2; 9]%Z)) = true /\
  fits_over [2] (Tensor [2] (lz [7; 8]%Z)) /\ fits_over [2] (number (qz 9)).
Proof.
  split; [vm_compute; reflexivity|]. split; (split; [constructor|]); intros [|k] Hk; cbn in *; auto; lia.
Qed.
Example object_statistics_ex :
  rteqb (c_cmom cm2) (Tensor [2; 3] (lz [1; 0; 3; 1; 0; 5]%Z)) = true /\
  rteqb (c_to_raw 5 cm2 None) (Tensor [2; 3] (lz [2; 1; 4; 4; 2; 9]%Z)) = true /\
  rteqb (c_rmom 5 cm2) (Tensor [2; 3] (lz [1; 1; 4; 1; 2; 9]%Z)) = true /\
  rteqb (c_to_raw 5 cm2 (Some (Tensor [2] (lz [7; 8]%Z)))) (Tensor [2; 3] (lz [7; 1; 4; 8; 2; 9]%Z)) = true /\
  rteqb (c_cmom cm22) (Tensor [2; 2; 2] (lz [1; 0; 0; 7; 1; 0; 0; 6]%Z)) = true /\
  rteqb (c_rmom 5 cm22) (Tensor [2; 2; 2] (lz [1; 3; 5; 22; 1; 1; 2; 8]%Z)) = true /\
  Forall (fun k => k <= 6) [3].
Proof. do 6 (split; [vm_compute; reflexivity|]). repeat constructor. Qed.

(* C128 *)
Example wrap_raw_ex :
  ceqb (c_wrap_raw 5 MPNone (Some 1%Z) None false (Tensor [2; 3] (lz [2; 1; 4; 4; 2; 9]%Z))) (Tensor [2; 3] (lz [2; 1; 3; 4; 2; 5]%Z)) = true /\
  array_factory false MPNone None (Some (IInt 0)) (Some 1%Z) = Ok (AP (Some (Z.of_nat (length [0%Z]))) (Some [0%Z])) /\
  ceqb (c_wrap_raw 5 MPNone None (Some (IInt 0)) false em1) (Tensor [3; 2] (lz [1; 4; 2; 3; 1; -2]%Z)) = true /\
  ceqb (c_wrap MPNone None (Some (IInt 0)) false em1) (Tensor [2; 3] (lz [1; 2; 5; 4; 3; 7]%Z)) = true /\
  Forall (fun n => 2 <= n <= 6) [3].
Proof. repeat split; try (vm_compute; reflexivity). repeat apply Forall_cons; try apply Forall_nil; lia. Qed.
Example wrap_raw_round_trip_ex :
  ceqb (rbind (c_to_raw 5 cm22 None) (c_wrap_raw 5 MPNone (Some 2%Z) None true)) (c_obj cm22) = true /\
  ceqb (rbind (c_to_raw 5 cm22 (Some (number (qz 3)))) (c_wrap_raw 5 MPNone (Some 2%Z) None true)) (Tensor [2; 2; 2] (lz [3; 3; 5; 7; 3; 1; 2; 6]%Z)) = true.
Proof. split; vm_compute; reflexivity. Qed.
(* wrap moves the moment axes to the end, wrap_raw keeps them in place: the object
   has the right weights, but another entry of each array is taken for the weight when it is
   added to itself *)
Definition raw33 : tensor := Tensor [3; 3] (lz [1; 2; 4; 1; 2; 3; 3; 6; 11]%Z).
Lemma rteqb_ok r t : rteqb r t = true -> r = Ok t.
Proof.
  destruct r as [[s l]|e]; [|discriminate]. destruct t as [s' l']. unfold rteqb, teqb. cbn [tshape tdata]. intros H. apply andb_true_iff in H. destruct H as [H1 H2].
  apply eqb1_eq in H2. subst l'. f_equal. f_equal. now destruct (list_eq_dec Nat.eq_dec s s').
Qed.
Definition ceqpb (r : res cmarray) (c : cmarray) : bool :=
  match r with
  | Ok a => (teqb (c_obj a) (c_obj c) &&
      match ap_ndim (c_params a), ap_ndim (c_params c), ap_axes (c_params a), ap_axes (c_params c) with
      | Some n, Some m, Some l, Some k => Z.eqb n m && (if list_eq_dec Z.eq_dec l k then true else false)
      | _, _, _, _ => false
      end)%bool
  | Raise _ => false
  end.
Lemma ceqpb_ok r c : ceqpb r c = true -> r = Ok c.
Proof.
  destruct r as [[t [n l]]|e]; [|discriminate]. destruct c as [u [m k]]. cbn [ceqpb c_obj c_params ap_ndim ap_axes]. intros H. apply andb_true_iff in H. destruct H as [H1 H2].
  assert (E : Ok t = Ok u) by (apply rteqb_ok; exact H1). injection E as ->. destruct n as [n|], m as [m|], l as [l|], k as [k|]; try discriminate.
  apply andb_true_iff in H2. destruct H2 as [H2 H3]. apply Z.eqb_eq in H2. destruct (list_eq_dec Z.eq_dec l k); [|discriminate]. now subst.
Qed.
(* what wrap_raw and wrap make of it, and twice the sum *)
Definition first33 : cmarray := CM (Tensor [3; 3] (lz [1; 2; 4; 1; 2; 3; 2; 2; 2]%Z)) (AP (Some 1%Z) (Some [0%Z])).
Definition last33 : cmarray := CM (Tensor [3; 3] (lz [1; 1; 2; 2; 2; 2; 4; 3; 2]%Z)) (AP (Some 1%Z) (Some [(-1)%Z])).
Definition wrong33 : cmarray := CM (Tensor [3; 3] (lz [2; 2; 4; 2; 2; 3; 4; 2; 2]%Z)) (AP (Some 1%Z) (Some [0%Z])).
Definition twice33 : cmarray := CM (Tensor [3; 3] (lz [2; 1; 2; 4; 2; 2; 8; 3; 2]%Z)) (AP (Some 1%Z) (Some [(-1)%Z])).
Theorem wrap_raw_axes_refuted : exists nmax raw m axes c c', let K := pusher1 nmax 2 in let P := packer1 2 in
  moment_axes [0%Z] [0] [1] raw /\ convertible nmax raw [0] /\
  c_wrap_raw nmax m None axes false raw = Ok c /\
  rbind (moments_type_nd nmax "central" [0%Z] false false raw) (c_wrap m None axes false) = Ok c' /\
  c_weight c = c_weight c' /\ c_mean c true = c_mean c' true /\ c_obj c <> c_obj c' /\
  forall stretch, exists d d' w w', c_add K P stretch c c = Ok d /\ c_add K P stretch c' c' = Ok d' /\
    c_weight d = Ok w /\ c_weight d' = Ok w' /\ tget w' [1] = qz 4 /\ tget w [1] = qz 2.
Proof.
  exists 5, raw33, MPNone, (Some (IInt 0)), first33, last33. cbv zeta. split; [|split; [|split; [|split; [|split; [|split; [|split]]]]]].
  - split; [reflexivity|]. split; [apply Forall2_cons; [unfold is_axis; cbn; lia|apply Forall2_nil]|]. split; [repeat constructor; intros []|reflexivity].
  - split; [cbn; auto|]. apply Forall_cons; [unfold shape_of; cbn; lia|apply Forall_nil].
  - apply ceqpb_ok. vm_compute. reflexivity.
  - apply ceqpb_ok. vm_compute. reflexivity.
  - rewrite (rteqb_ok (c_weight first33) (Tensor [3] (lz [1; 2; 4]%Z))), (rteqb_ok (c_weight last33) (Tensor [3] (lz [1; 2; 4]%Z))) by (vm_compute; reflexivity). reflexivity.
  - rewrite (rteqb_ok (c_mean first33 true) (Tensor [3] (lz [1; 2; 3]%Z))), (rteqb_ok (c_mean last33 true) (Tensor [3] (lz [1; 2; 3]%Z))) by (vm_compute; reflexivity). reflexivity.
  - intros C. apply (f_equal tdata) in C. revert C. apply eqb1_neq. vm_compute. reflexivity.
  - intros stretch. exists wrong33, twice33, (Tensor [3] (lz [2; 2; 4]%Z)), (Tensor [3] (lz [2; 4; 8]%Z)).
    split; [apply ceqpb_ok; destruct stretch; vm_compute; reflexivity|]. split; [apply ceqpb_ok; destruct stretch; vm_compute; reflexivity|].
    split; [apply rteqb_ok; vm_compute; reflexivity|]. split; [apply rteqb_ok; vm_compute; reflexivity|]. split; reflexivity.
Qed.

(* C129, C130 *)
Definition exw : tensor := Tensor [3] (lz [1; 2; 1]%Z).
Lemma exv_ok : values_ok (packer1 2) (AInt 0) 1 exv exw [] [3; 2].
Proof.
  split; [reflexivity|]. split; [|now apply broadcast_shapes_ok]. split; [reflexivity|]. split; [exists 0; split; [unfold names_axis, is_axis; cbn; lia|reflexivity]|].
  intros t [<-|[]]. split; [reflexivity|]. right. left. split; reflexivity.
Qed.
Lemma exw_nonneg : nonneg_entries exw.
Proof. repeat (apply Forall_cons; [vm_compute; discriminate|]). apply Forall_nil. Qed.
Example wrap_reduce_vals_ex :
  ceqb (c_wrap_reduce_vals 5 (IInt 2) (AInt 0) exv exw []) (Tensor [2; 3] [qz 4; fr 9 4; fr 19 16; qz 4; fr 45 2; fr 475 4]) = true /\
  samples_on reader1 exv exw [] 1 [1] = [(qz 10, qz 1); (qz 20, qz 2); (qz 40, qz 1)] /\
  mom_names 5 (IInt 2) (pusher1 5 2) (packer1 2) reader1 /\
  rteqb (rbind (c_wrap_reduce_vals 5 (IInt 2) (AInt 0) exv exw []) (fun c => c_var c true)) (Tensor [2] [fr 19 16; fr 475 4]) = true /\
  rteqb (rbind (c_wrap_reduce_vals 5 (IInt 2) (AInt 0) exv exw []) (c_rmom 5)) (Tensor [2; 3] [qz 1; fr 9 4; fr 25 4; qz 1; fr 45 2; qz 625]) = true.
Proof. split; [vm_compute; reflexivity|]. split; [reflexivity|]. split; [apply names_one; [lia|now left]|]. split; vm_compute; reflexivity. Qed.
Example wrap_vals_bad_mom_ex : bad_mom (IInt 0) EValue /\ bad_mom (IIter [1; 2; 3]%Z) EValue /\ bad_mom (IIter [2; -1]%Z) EValue /\ bad_mom INot EType /\
  c_wrap_reduce_vals 5 (IIter [2; -1]%Z) (AInt 0) exv exw [] = Raise EValue.
Proof.
  split; [split; [lia|reflexivity]|]. split; [split; [cbn; intros [[A|A] _]; discriminate|reflexivity]|]. split; [|split; [reflexivity|vm_compute; reflexivity]].
  split; [|reflexivity]. intros [_ A]. inversion A as [|? ? _ B]; subst. inversion B; subst. lia.
Qed.
(* pairs: the second variable along the samples *)
Definition exy : tensor := Tensor [3] (lz [1; 0; 3]%Z).
Lemma exvy_ok : values_ok (packer2 1 1) (AInt 0) 1 exv exw [exy] [3; 2].
Proof.
  split; [reflexivity|]. split; [|now apply broadcast_shapes_ok]. split; [reflexivity|]. split; [exists 0; split; [unfold names_axis, is_axis; cbn; lia|reflexivity]|].
  intros t [<-|[<-|[]]]; (split; [reflexivity|]); right; left; split; reflexivity.
Qed.
Example wrap_reduce_pairs_ex :
  ceqb (c_wrap_reduce_vals 5 (IIter [1; 1]%Z) (AInt 0) exv exw [exy]) (Tensor [2; 2; 2] [qz 4; qz 1; fr 9 4; qz 1; qz 4; qz 1; fr 45 2; qz 10]) = true /\
  rteqb (rbind (c_wrap_reduce_vals 5 (IIter [1; 1]%Z) (AInt 0) exv exw [exy]) c_cov) (Tensor [2] [qz 1; qz 10]) = true.
Proof. split; vm_compute; reflexivity. Qed.
(* replicates: the samples themselves, the first one three times *)
Definition exf : tensor := Tensor [2; 3] (lz [1; 1; 1; 3; 0; 0]%Z).
Example wrap_resample_vals_ex :
  replicate_shape false 2 1 [3; 2] = [2; 2] /\ replicate_shape true 4 1 [3; 2] = [2; 4] /\
  replicate_at false 1 [5; 7] = 5 /\ rest_at false 1 [5; 7] = [7] /\ replicate_at true 1 [5; 7] = 7 /\ rest_at true 1 [5; 7] = [5] /\
  ceqb (c_wrap_resample_vals 5 (IInt 2) exf (AInt 0) false exv exw [])
    (Tensor [2; 2; 3] [qz 4; fr 9 4; fr 19 16; qz 4; fr 45 2; fr 475 4; qz 3; qz 1; qz 0; qz 3; qz 10; qz 0]) = true /\
  ceqb (c_wrap_resample_vals 5 (IInt 2) exf (AInt 0) true exv exw [])
    (Tensor [2; 2; 3] [qz 4; fr 9 4; fr 19 16; qz 3; qz 1; qz 0; qz 4; fr 45 2; fr 475 4; qz 3; qz 10; qz 0]) = true /\
  nonneg_entries exf /\ tensor_ok exf /\ tndim exf = 2 /\ shape_of exf 1 = dim_from_end exv 1 /\ W1 (resampled exf 1 (samples_on reader1 exv exw [] 1 [1])) = qz 3.
Proof.
  do 6 (split; [reflexivity|]). split; [vm_compute; reflexivity|]. split; [vm_compute; reflexivity|]. split; [|split; [reflexivity|split; [reflexivity|split; [reflexivity|]]]].
  - repeat (apply Forall_cons; [vm_compute; discriminate|]). apply Forall_nil.
  - apply Qc_is_canon. vm_compute. reflexivity.
Qed.

(* C131 *)
Example zeros_like_ex : ceqb (c_zeros_like cm2) (Tensor [2; 3] (lz [0; 0; 0; 0; 0; 0]%Z)) = true /\ c_obj (c_fill cm0 (qz 7)) = Tensor [3] (lz [7; 7; 7]%Z).
Proof. split; vm_compute; reflexivity. Qed.
Example object_comoments_ex :
  resolved (1, -1)%Z (Z.of_nat 2) (Z.of_nat 1, Z.of_nat 1) /\
  ceqb (c_moments_to_comoments cm2 [1; -1]%Z) (Tensor [2; 2; 2] (lz [2; 1; 1; 3; 4; 2; 2; 5]%Z)) = true /\
  c_moments_to_comoments cm22 [1; 1]%Z = Raise EValue /\ c_moments_to_comoments cm2 [1; 2]%Z = Raise EValue /\
  (forall out, ~ resolved (1, 2)%Z (Z.of_nat 2) out).
Proof.
  split; [split; [reflexivity|cbn; lia]|]. split; [vm_compute; reflexivity|]. split; [vm_compute; reflexivity|]. split; [vm_compute; reflexivity|].
  intros out (E & _ & _ & C). cbn in E. subst out. cbn in C. lia.
Qed.
Example comoments_of_samples_ex :
  ceqb (rbind (c_wrap_reduce_vals 5 (IInt 2) (AInt 0) exv exw []) (fun c => c_moments_to_comoments c [1; 1]%Z))
    (Tensor [2; 2; 2] [qz 4; fr 9 4; fr 9 4; fr 19 16; qz 4; fr 45 2; fr 45 2; fr 475 4]) = true /\
  ceqb (c_wrap_reduce_vals 5 (IIter [1; 1]%Z) (AInt 0) exv exw [exv])
    (Tensor [2; 2; 2] [qz 4; fr 9 4; fr 9 4; fr 19 16; qz 4; fr 45 2; fr 45 2; fr 475 4]) = true.
Proof. split; vm_compute; reflexivity. Qed.

(* C132 *)
Example default_names_ex : default_names "dim" 2 ++ default_names "mom" 1 = ["dim_0"; "dim_1"; "mom_0"] /\ numbered "dim" 12 = "dim_12".
Proof. split; reflexivity. Qed.
Example to_dataarray_ex :
  c_to_dataarray cm2 None None = Ok (CX (XA ["dim_0"; "mom_0"] (c_obj cm2)) (XP (Some 1%Z) (Some ["mom_0"]))) /\
  c_to_dataarray cm2 (Some (DStr "t")) (Some (DSeq ["m"])) = Ok (CX (XA ["t"; "m"] (c_obj cm2)) (XP (Some 1%Z) (Some ["m"]))) /\
  c_to_dataarray cm2 (Some (DSeq ["t"; "u"])) (Some (DSeq ["m"])) = Ok (CX (XA ["t"; "u"] (c_obj cm2)) (XP (Some 1%Z) (Some ["u"]))) /\
  c_to_dataarray cm2 (Some (DSeq ["t"; "u"; "v"])) None = Raise EValue /\
  c_to_dataarray cm2 None (Some (DSeq ["m"; "n"])) = Raise EValue /\
  c_to_dataarray_like cm2 (XA ["a"; "b"] (Tensor [2; 3] (lz [0; 0; 0; 0; 0; 0]%Z))) = Ok (CX (XA ["a"; "b"] (c_obj cm2)) (XP (Some 1%Z) (Some ["b"]))) /\
  c_to_dataarray_like cm2 (XA ["a"; "b"] (Tensor [3; 2] (lz [0; 0; 0; 0; 0; 0]%Z))) = Raise EValue.
Proof. do 6 (split; [reflexivity|]). reflexivity. Qed.
Example to_array_and_back_ex : let d := CX (XA ["a"; "b"] (c_obj cm2)) (XP (Some 1%Z) (Some ["b"])) in xholds d ["b"] /\ x_dims (cx_obj d) = ["a"] ++ ["b"].
Proof.
  split; [|reflexivity]. split; [split; [reflexivity|split; [|reflexivity]]|].
  - cbn. repeat constructor; cbn; intuition discriminate.
  - split; [repeat constructor; intros []|]. split; [now left|]. split; [intros z [<-|[]]; cbn; auto|]. split; [|reflexivity].
    apply Forall_cons; [vm_compute; lia|apply Forall_nil].
Qed.
Example multiply_is_assign_ex :
  ceqb (Ok (c_mul (packer1 2) cm2 (qz 5))) (Tensor [2; 3] (lz [10; 1; 3; 20; 2; 5]%Z)) = true /\
  ceqb (c_assign_moment cm2 [("weight", Tensor [2] (lz [10; 20]%Z))] true) (Tensor [2; 3] (lz [10; 1; 3; 20; 2; 5]%Z)) = true.
Proof. split; vm_compute; reflexivity. Qed.
