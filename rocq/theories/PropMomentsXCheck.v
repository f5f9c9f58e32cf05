(* Concrete cases for the theorems about moments of labelled arrays (C142 to C148),
   and claims that fail. *)
From Coq Require Import String.
From Verif Require Import Base BaseLemmas ModelPush ModelKernels ModelIndex ModelAxes ModelState ModelParams ModelNd ModelWrap ModelLabel ModelMoments ModelMethods ModelMethodsX ModelConstruct ModelMomentsX
  Spec SpecAxes SpecNd SpecMethods SpecLabel SpecMethodsX SpecMoments SpecMomentsX ProofArrays ProofNd ProofLabels Checks PropAxes PropNdVals PropLabelled
  PropMethodsCheck PropConvert PropMoments PropConstructCheck PropMethodsXMore PropMethodsXCheck PropMomentsX PropComomentsX PropSelectX PropAssignX PropValsDataX PropStatsX.
Local Notation length := List.length (only parsing).
Local Open Scope string_scope.
Local Open Scope list_scope.

Definition xeqb (r : res xarr) (dims : list sname) (t : tensor) : bool :=
  match r with Ok x => ((if list_eq_dec string_dec (x_dims x) dims then true else false) && teqb (x_val x) t)%bool | Raise _ => false end.
Lemma xeqb_ok r dims t : xeqb r dims t = true -> r = Ok (XA dims t).
Proof.
  destruct r as [[d v]|e]; [|discriminate]. cbn [xeqb x_dims x_val]. intros H. apply andb_true_iff in H. destruct H as [H1 H2].
  destruct (list_eq_dec string_dec d dims); [|discriminate]. subst. assert (E : Ok v = Ok t) by (apply rteqb_ok; exact H2). congruence.
Qed.

(* the moments of cxa, and comoments of order (2, 2) at two positions of x *)
Definition mx1 : xarr := cx_obj cxa.
Definition mx2 : xarr := XA ["a"; "x"; "b"] (Tensor [3; 2; 3] (lz [4; 1; 3; 5; 2; 1;  2; 1; 2; 3; 1; 1;  6; 0; 1; 8; 2; 7]%Z)).
Definition cx2 : cmdata := CX mx2 (params_for ["a"; "b"]).
Lemma mx1_moments : has_moments ["mom"] mx1.
Proof. exact (object_moments cxa ["mom"] (proj1 cxa_holds)). Qed.
Lemma cx2_holds : xholds cx2 ["a"; "b"].
Proof.
  split; [split; [reflexivity|]; split; [repeat constructor; cbn; intuition discriminate|reflexivity]|]. split; [repeat constructor; cbn; intuition discriminate|]. split; [now right|].
  split; [intros n [<-|[<-|[]]]; cbn; auto|]. split; [|reflexivity]. repeat apply Forall_cons; try apply Forall_nil; vm_compute; lia.
Qed.
Lemma mx2_moments : has_moments ["a"; "b"] mx2.
Proof. exact (object_moments cx2 ["a"; "b"] cx2_holds). Qed.

(* C142 *)
Example moments_type_named_ex : Forall (fun d => 2 <= dim_size mx2 d <= 6) ["a"; "b"] /\
  xeqb (x_moments_type 5 "raw" (params_for ["mom"]) true false mx1) ["x"; "mom"] (Tensor [3; 3] (lz [1; 1; 3; 2; 2; 6; 4; 3; 11]%Z)) = true /\
  xeqb (x_moments_type 5 "raw" (params_for ["a"; "b"]) false false mx2) ["a"; "x"; "b"] (Tensor [3; 2; 3] (lz [4; 1; 4; 5; 2; 5; 2; 3; 12; 3; 7; 20; 10; 14; 39; 17; 42; 122]%Z)) = true /\
  xeqb (rbind (x_moments_type 5 "raw" (params_for ["a"; "b"]) false false mx2) (x_moments_type 5 "central" (params_for ["a"; "b"]) false true)) (x_dims mx2) (x_val mx2) = true.
Proof. split; [repeat apply Forall_cons; try apply Forall_nil; vm_compute; lia|]. split; [vm_compute; reflexivity|]. split; vm_compute; reflexivity. Qed.
Example moments_type_named_refused_ex : ~ incl ["m"] (x_dims mx1) /\ x_moments_type 5 "raw" (params_for ["m"]) false false mx1 = Raise EValue /\
  x_inside mx1 (fun _ => 0) /\ x_moments_type 1 "raw" (params_for ["mom"]) false false mx1 = Raise EMem.
Proof.
  split; [intros I; specialize (I "m" ltac:(now left)); cbn in I; intuition discriminate|]. split; [vm_compute; reflexivity|]. split; [intros n [<-|[<-|[]]]; vm_compute; lia|].
  apply (moments_type_named_outside 1 "raw" ["mom"] mx1 false (fun _ => 0) mx1_moments); [left; right; vm_compute; lia|]. intros n [<-|[<-|[]]]; vm_compute; lia.
Qed.

(* C143 *)
Example moments_to_comoments_named_ex : new_names mx1 ["mom"] ["mom"; "y"] /\ can_stand_aside mx1 ["mom"; "y"] "mom" /\
  ModelConvert.validate_mom_moments_to_comoments [1; -1]%Z 2 = Ok (1, 1)%Z /\
  xeqb (x_moments_to_comoments (params_for ["mom"]) [1; -1]%Z None mx1) ["x"; "mom_0"; "mom_1"] (Tensor [3; 2; 2] (lz [1; 1; 1; 2; 2; 2; 2; 2; 4; 3; 3; 2]%Z)) = true /\
  xeqb (x_moments_to_comoments (params_for ["mom"]) [1; -1]%Z (Some (DSeq ["mom"; "y"])) mx1) ["x"; "mom"; "y"] (Tensor [3; 2; 2] (lz [1; 1; 1; 2; 2; 2; 2; 2; 4; 3; 3; 2]%Z)) = true.
Proof.
  split; [split; [repeat constructor; cbn; intuition discriminate|]; intros n [<-|[<-|[]]]; cbn; intuition discriminate|]. split; [split; cbn; intuition discriminate|]. split; [reflexivity|]. split; vm_compute; reflexivity.
Qed.
Example comoments_to_moments_named_ex : forall v, new_names mx2 ["a"; "b"] ["b"] /\
  x_comoments_to_moments (fun _ => v) (params_for ["a"; "b"]) (Some (DStr "b")) mx2 = Ok (XA ["x"; "b"] (Tensor [2; 5] (lz [4; 1; 3; 2; 1; 5; 2; 1; 1; 7]%Z))) /\
  rbind (x_moments_to_comoments (params_for ["mom"]) [1; -1]%Z None mx1) (x_comoments_to_moments (fun _ => v) (params_for ["mom_0"; "mom_1"]) (Some (DStr "mom"))) = Ok (XA ["x"; "mom"] (Tensor [3; 3] (lz [1; 1; 2; 2; 2; 2; 4; 3; 2]%Z))).
Proof. intros v. split; [split; [repeat constructor; cbn; intuition discriminate|]; intros n [<-|[]]; cbn; intuition discriminate|]. split; vm_compute; reflexivity. Qed.
Example moments_to_comoments_named_refused_ex : x_moments_to_comoments (params_for ["mom"]) [1; -1]%Z (Some (DSeq ["x"; "y"])) mx1 = Raise EValue /\
  x_moments_to_comoments (params_for ["mom"]) [-1; -1]%Z None mx1 = Raise EValue /\ x_moments_to_comoments (params_for ["mom"]) [1; 2]%Z None mx1 = Raise EValue /\
  x_moments_to_comoments (params_for ["m"]) [1; -1]%Z None mx1 = Raise EKey /\
  x_comoments_to_moments (fun _ => 0%Qc) (params_for ["a"; "c"]) None mx2 = Raise EKey.
Proof. split; [vm_compute; reflexivity|]. split; [vm_compute; reflexivity|]. split; [vm_compute; reflexivity|]. split; vm_compute; reflexivity. Qed.
(* new names that clash with no dimension that stays are not always accepted: the
   name under which the old dimension stands aside may be taken *)
Theorem comoments_new_names_refuted : exists x d asked a b, has_moments [d] x /\ chosen_names 2 asked [a; b] /\ new_names x [d] [a; b] /\ (exists c, resolved (1, -1)%Z (Z.of_nat (dim_size x d) - 1) c) /\
  x_moments_to_comoments (params_for [d]) [1; -1]%Z asked x = Raise EValue.
Proof.
  exists (XA ["_tmp_mom"; "mom"] (Tensor [1; 3] (lz [1; 2; 3]%Z))), "mom", (Some (DSeq ["mom"; "y"])), "mom", "y".
  split; [split; [split; [reflexivity|]; split; [repeat constructor; cbn; intuition discriminate|reflexivity]|]; split; [repeat constructor; intros []|]; split; [now left|]; intros n [<-|[]]; cbn; auto|].
  split; [split; [reflexivity|now left]|]. split; [split; [repeat constructor; cbn; intuition discriminate|]; intros n [<-|[<-|[]]]; cbn; intuition discriminate|].
  split; [exists (1, 1)%Z; apply comoment_orders_resolved; reflexivity|vm_compute; reflexivity].
Qed.

(* C144 *)
Example select_moment_named_ex : combined_ok mx2 ["a"; "b"] "variable" /\
  x_select_moment (params_for ["a"; "b"]) "ave" true "variable" (Some ["p"; "q"]) mx2 = Ok (XA ["x"; "variable"] (Tensor [2; 2] (lz [2; 1; 3; 2]%Z))) /\
  x_select_moment (params_for ["a"; "b"]) "xmom_1" true "variable" None mx2 = Ok (XA ["x"; "b"] (Tensor [2; 3] (lz [2; 1; 2; 3; 1; 1]%Z))) /\
  x_select_moment (params_for ["a"; "b"]) "ymom_0" true "variable" None mx2 = Ok (XA ["x"; "a"] (Tensor [2; 3] (lz [4; 2; 6; 5; 3; 8]%Z))) /\
  x_select_moment (params_for ["a"; "b"]) "cov" true "variable" None mx2 = Ok (XA ["x"] (Tensor [2] (lz [1; 1]%Z))) /\
  x_select_moment (params_for ["mom"]) "ave" true "variable" None mx1 = Ok (XA ["x"] (Tensor [3] (lz [1; 2; 3]%Z))) /\
  x_select_moment (params_for ["mom"]) "ave" false "k" None mx1 = Ok (XA ["x"; "k"] (Tensor [3; 1] (lz [1; 2; 3]%Z))).
Proof. split; [split; cbn; intuition discriminate|]. repeat (split; [vm_compute; reflexivity|]). vm_compute. reflexivity. Qed.
Example select_moment_named_refused_ex : x_select_moment (params_for ["a"; "b"]) "ave" true "variable" (Some ["p"]) mx2 = Raise EValue /\
  x_select_moment (params_for ["a"; "b"]) "ave" true "x" None mx2 = Raise EValue /\ x_select_moment (params_for ["mom"]) "yave" true "variable" None mx1 = Raise EValue /\
  x_select_moment (params_for ["m"]) "ave" true "variable" None (XA ["m"] (Tensor [1] (lz [1]%Z))) = Raise EIndex /\ x_select_moment (params_for ["m"]) "ave" true "variable" None mx1 = Raise EValue.
Proof. repeat (split; [vm_compute; reflexivity|]). vm_compute. reflexivity. Qed.

(* C145 *)
Definition va : xarr := XA ["v"; "x"] (Tensor [2; 2] (lz [10; 20; 30; 40]%Z)).
Example assign_moment_named_ex : lines_up ["v"] [2] ["x"] (dim_size mx2) (Labelled va) /\ combined_ok mx2 ["a"; "b"] "v" /\
  x_assign_moment (params_for ["a"; "b"]) [("ave", Labelled va)] true (Some "v") mx2 = Ok (XA ["x"; "a"; "b"] (Tensor [2; 3; 3] (lz [4; 30; 3; 10; 1; 2; 6; 0; 1; 5; 40; 1; 20; 1; 1; 8; 2; 7]%Z))) /\
  x_assign_moment (params_for ["a"; "b"]) [("weight", Labelled (XA ["x"] (Tensor [2] (lz [7; 9]%Z)))); ("ymom_1", Plain (Tensor [] (lz [0]%Z))); ("cov", Plain (Tensor [2] (lz [5; 6]%Z)))] true None mx2 =
    Ok (XA ["x"; "a"; "b"] (Tensor [2; 3; 3] (lz [7; 0; 3; 2; 5; 2; 6; 0; 1; 9; 0; 1; 3; 6; 1; 8; 0; 7]%Z))).
Proof.
  split; [|split; [split; cbn; intuition discriminate|split; vm_compute; reflexivity]].
  split; [split; [reflexivity|]; split; [repeat constructor; cbn; intuition discriminate|reflexivity]|]. split; [intros n [<-|[]]; now left|]. split; [intros n [<-|[<-|[]]]; cbn; auto|]. split; [|reflexivity]. intros n _ [<-|[]]. reflexivity.
Qed.
Example assign_selected_named_ex : exists sel, x_select_moment (params_for ["a"; "b"]) "var" true "v" None mx2 = Ok sel /\
  x_assign_moment (params_for ["a"; "b"]) [("var", Labelled sel)] true (Some "v") mx2 = Ok (XA ["x"; "a"; "b"] (Tensor [2; 3; 3] (lz [4; 1; 3; 2; 1; 2; 6; 0; 1; 5; 2; 1; 3; 1; 1; 8; 2; 7]%Z))).
Proof. exists (XA ["x"; "v"] (Tensor [2; 2] (lz [6; 3; 8; 1]%Z))). split; vm_compute; reflexivity. Qed.
Example assign_moment_named_refused_ex : x_assign_moment (params_for ["mom"]) [("yave", Plain (Tensor [] (lz [0]%Z)))] true None mx1 = Raise EValue /\
  x_assign_moment (params_for ["m"]) [("var", Plain (Tensor [] (lz [0]%Z)))] true None (XA ["m"] (Tensor [2] (lz [1; 2]%Z))) = Raise EIndex /\
  x_assign_moment (params_for ["mom"]) [("ave", Plain (Tensor [2] (lz [0; 1]%Z)))] true None mx1 = Raise EValue.
Proof. repeat (split; [vm_compute; reflexivity|]). vm_compute. reflexivity. Qed.

(* C146: averages given by name, without dim_combined=, do not become the averages at
   their positions: the last dimension of the values counts as that of the variables *)
Theorem assign_average_by_name_refuted : exists x v y, has_moments ["a"; "b"] x /\ x_ok v /\ x_dims v = ["x"] /\ dim_size v "x" = dim_size x "x" /\ except_name (x_dims x) ["a"; "b"] = ["x"] /\
  x_assign_moment (params_for ["a"; "b"]) [("ave", Labelled v)] true None x = Ok y /\
  ~ (forall env, env "x" < dim_size x "x" -> named_moment y ["a"; "b"] env [1; 0] = x_at v env).
Proof.
  exists mx2, (XA ["x"] (Tensor [2] (lz [10; 20]%Z))), (XA ["x"; "a"; "b"] (Tensor [2; 3; 3] (lz [4; 20; 3; 10; 1; 2; 6; 0; 1; 5; 20; 1; 10; 1; 1; 8; 2; 7]%Z))).
  split; [exact mx2_moments|]. split; [split; [reflexivity|]; split; [repeat constructor; intros []|reflexivity]|]. split; [reflexivity|]. split; [reflexivity|]. split; [reflexivity|]. split; [vm_compute; reflexivity|].
  intros C. specialize (C (fun _ => 1) ltac:(vm_compute; lia)). revert C. apply qc_neq. vm_compute. reflexivity.
Qed.
(* assigning what was selected, both with the defaults, raises *)
Theorem assign_selected_default_refuted : exists x sel, has_moments ["a"; "b"] x /\ x_select_moment (params_for ["a"; "b"]) "ave" true "variable" None x = Ok sel /\
  x_assign_moment (params_for ["a"; "b"]) [("ave", Labelled sel)] true None x = Raise EValue.
Proof. exists mx2, (XA ["x"; "variable"] (Tensor [2; 2] (lz [2; 1; 3; 2]%Z))). split; [exact mx2_moments|]. split; vm_compute; reflexivity. Qed.
(* assigning what the array has already changes the order of the dimensions *)
Theorem assign_keeps_order_refuted : exists x v, has_moments ["a"; "b"] x /\ x_select_moment (params_for ["a"; "b"]) "weight" true "variable" None x = Ok v /\
  x_assign_moment (params_for ["a"; "b"]) [("weight", Labelled v)] true None x <> Ok x.
Proof. exists mx2, (XA ["x"] (Tensor [2] (lz [4; 5]%Z))). split; [exact mx2_moments|]. split; [vm_compute; reflexivity|]. vm_compute. discriminate. Qed.

(* C147 *)
Definition vx : xarr := XA ["x"] (Tensor [2] (lz [10; 20]%Z)).
Definition vy : xarr := XA ["y"; "x"] (Tensor [2; 2] (lz [1; 2; 3; 4]%Z)).
Definition vsz (n : sname) : nat := 2.
Example vals_to_data_named_ex : let w := Plain (Tensor [] (lz [2]%Z)) in
  met_dims [Labelled vx; w; Labelled vy] = ["x"; "y"] /\ Forall (lines_up [] [] ["x"; "y"] vsz) [Labelled vx; w; Labelled vy] /\
  x_vals_to_data (IIter [2; 1]%Z) MPNone None vx w [Labelled vy] = Ok (XA ["x"; "y"; "mom_0"; "mom_1"] (Tensor [2; 2; 3; 2] (lz [2; 1; 10; 0; 0; 0; 2; 3; 10; 0; 0; 0; 2; 2; 20; 0; 0; 0; 2; 4; 20; 0; 0; 0]%Z))).
Proof.
  cbv zeta. split; [reflexivity|]. split; [|vm_compute; reflexivity]. repeat apply Forall_cons; [| | |apply Forall_nil].
  - split; [split; [reflexivity|]; split; [repeat constructor; intros []|reflexivity]|]. split; [intros n []|]. split; [intros n [<-|[]]; cbn; auto|]. split; [|reflexivity]. intros n [<-|[]] _. reflexivity.
  - split; [reflexivity|]. exists []. split; [reflexivity|apply scalar_fits].
  - split; [split; [reflexivity|]; split; [repeat constructor; cbn; intuition discriminate|reflexivity]|]. split; [intros n []|]. split; [intros n [<-|[<-|[]]]; cbn; auto|]. split; [|reflexivity]. intros n [<-|[<-|[]]] _; reflexivity.
Qed.
Example vals_to_data_named_refused_ex : let w := Plain (Tensor [] (lz [2]%Z)) in
  x_vals_to_data (IIter [2; 1]%Z) MPNone None vx w [] = Raise EValue /\ x_vals_to_data (IIter [2; 1]%Z) MPNone (Some (DSeq ["y"; "m"])) vx w [Labelled vy] = Raise EValue /\
  x_vals_to_data (IIter [2; 1]%Z) MPNone None vx w [Labelled (XA ["x"] (Tensor [3] (lz [1; 2; 3]%Z)))] = Raise EValue.
Proof. cbv zeta. repeat (split; [vm_compute; reflexivity|]). vm_compute. reflexivity. Qed.

(* C148 *)
Example statistics_named_ex :
  cx_weight cx2 = Ok (XA ["x"] (Tensor [2] (lz [4; 5]%Z))) /\ cx_mean cx2 false = Ok (XA ["x"; "variable"] (Tensor [2; 2] (lz [2; 1; 3; 2]%Z))) /\
  cx_var cx2 true = Ok (XA ["x"; "variable"] (Tensor [2; 2] (lz [6; 3; 8; 1]%Z))) /\ cx_cov cx2 = Ok (XA ["x"] (Tensor [2] (lz [1; 1]%Z))) /\ cx_var cxa true = Ok (XA ["x"] (Tensor [3] (lz [2; 2; 2]%Z))) /\
  xeqb (cx_cmom cx2) ["x"; "a"; "b"] (Tensor [2; 3; 3] (lz [1; 0; 3; 0; 1; 2; 6; 0; 1; 1; 0; 1; 0; 1; 1; 8; 2; 7]%Z)) = true /\
  xeqb (cx_rmom 5 cx2) ["x"; "a"; "b"] (Tensor [2; 3; 3] (lz [1; 1; 4; 2; 3; 12; 10; 14; 39; 1; 2; 5; 3; 7; 20; 17; 42; 122]%Z)) = true.
Proof. repeat (split; [vm_compute; reflexivity|]). vm_compute. reflexivity. Qed.
Example to_raw_named_ex : Forall (fun d => dim_size mx2 d <= 6) ["a"; "b"] /\ value_suits ["a"; "b"] true "" ["x"] (dim_size mx2) "weight" [] (Labelled vx) /\
  xeqb (cx_to_raw 5 cx2 (Some (Labelled vx))) ["x"; "a"; "b"] (Tensor [2; 3; 3] (lz [10; 1; 4; 2; 3; 12; 10; 14; 39; 20; 2; 5; 3; 7; 20; 17; 42; 122]%Z)) = true /\
  rbind (cx_to_raw 5 cx2 None) (cx_wrap_raw 5 (params_for ["a"; "b"])) = Ok cx2.
Proof.
  split; [repeat apply Forall_cons; try apply Forall_nil; vm_compute; lia|]. split; [|split; [vm_compute; reflexivity|]].
  - split; [split; [reflexivity|]; split; [repeat constructor; intros []|reflexivity]|]. split; [intros n []|]. split; [intros n [<-|[]]; cbn; auto|]. split; [|reflexivity]. intros n [<-|[]] _. reflexivity.
  - apply (wrap_raw_of_to_raw_named cx2 ["a"; "b"] cx2_holds 5). repeat apply Forall_cons; try apply Forall_nil; vm_compute; lia.
Qed.
(* statistics of objects with two moment dimensions raise when some dimension is called
   "variable", although the method has no argument for another name *)
Theorem mean_any_names_refuted : exists c a b, xholds c [a; b] /\ cx_mean c true = Raise EValue.
Proof.
  exists (CX (XA ["variable"; "a"; "b"] (Tensor [2; 3; 3] (tdata (x_val mx2)))) (params_for ["a"; "b"])), "a", "b". split; [|vm_compute; reflexivity].
  split; [split; [reflexivity|]; split; [repeat constructor; cbn; intuition discriminate|reflexivity]|]. split; [repeat constructor; cbn; intuition discriminate|]. split; [now right|].
  split; [intros n [<-|[<-|[]]]; cbn; auto|]. split; [|reflexivity]. repeat apply Forall_cons; try apply Forall_nil; vm_compute; lia.
Qed.
Example assign_blank_combined_ex : x_assign_moment (params_for ["a"; "b"]) [("ave", Labelled va)] true (Some "") mx2 = Raise EValue.
Proof. vm_compute. reflexivity. Qed.
Example object_assign_named_ex : match cx_assign_moment cx2 [("ave", Labelled va)] true (Some "v") with Ok c' => x_dims (cx_obj c') | Raise _ => [] end = ["x"; "a"; "b"] /\
  xeqb (rmap cx_obj (cx_assign_moment cx2 [("ave", Labelled va)] true (Some "v"))) ["x"; "a"; "b"] (Tensor [2; 3; 3] (lz [4; 30; 3; 10; 1; 2; 6; 0; 1; 5; 40; 1; 20; 1; 1; 8; 2; 7]%Z)) = true.
Proof. split; vm_compute; reflexivity. Qed.
