(* Concrete cases for the theorems about out= (C149, C150), and claims that fail. *)
From Coq Require Import String.
From Verif Require Import Base BaseLemmas ModelPush ModelKernels ModelIndex ModelAxes ModelState ModelParams ModelWrap ModelNd ModelLabel ModelMoments ModelMomentsX ModelOut
  Spec SpecAxes SpecNd SpecLabel SpecLabelTwo SpecMomentsX SpecOut ProofArrays Checks PropAxes PropLabelled PropNdUse PropLabelCheck PropOut PropOutVals.
Local Open Scope string_scope.
Local Open Scope nat_scope.

(* an array of shape s filled with zeros, or with nan *)
Definition blank (s : list nat) : grid Qc := gtabulate s (fun _ => 0%Qc).
Definition blank_opt (s : list nat) : grid (option Qc) := gtabulate s (fun _ => None).
Definition geqb (r : res (grid Qc)) (s : list nat) (l : list Qc) : bool := match r with Ok g => ((if list_eq_dec Nat.eq_dec (gshape g) s then true else false) && eqb1 (gdata g) l)%bool | Raise _ => false end.
(* two results with the same shape and entries *)
Definition same_grid (r : res (lgrid Qc)) (o : res (grid Qc)) : bool := match r with Ok y => geqb o (gshape (lg_val y)) (gdata (lg_val y)) | Raise _ => false end.
Definition same_opt (r : res (lgrid (option Qc))) (o : res (grid (option Qc))) : bool := match r with Ok y => gteqb o (gshape (lg_val y)) (gdata (lg_val y)) | Raise _ => false end.

Lemma lx1_has : has_moments ["mom"] lx1.
Proof. split; [apply lx1_moments|]. split; [repeat constructor; intros []|]. split; [now left|]. intros n [<-|[]]; cbn; auto. Qed.
Local Notation K := (pusher1 5 1). Local Notation P := (packer1 1). Local Notation p := (params_for ["mom"]).

(* kernels by the sizes of the moments *)
Local Notation KK := (fun s : list nat => pusher1 5 (nth 0 s 0 - 1)). Local Notation PP := (fun s : list nat => packer1 (nth 0 s 0 - 1)).

(* C149 *)
Definition lfreq : xop := Plain (Tensor [2; 3] (lz [1; 1; 1; 2; 0; 1]%Z)).
Example data_fills_ex : let s := @Val sname "s" in
  same_grid (x_cumulative K P p false Missing s false lx1) (x_cumulative_out K P p false Missing s false lx1 (blank [2; 3; 2])) = true /\
  same_grid (x_cumulative K P p false Missing s true lx1) (x_cumulative_out K P p false Missing s true lx1 (blank [2; 3; 2])) = true /\
  x_cumulative_out K P p false Missing s false lx1 (blank [2; 2; 3]) = Raise EValue /\ x_cumulative_out K P p false Missing s false lx1 (blank [2; 3]) = Raise EValue /\
  same_grid (x_reduce_data_grouped K P p [0; 1; 0]%Z (Some "g") Missing s false lx1) (x_reduce_data_grouped_out K P p [0; 1; 0]%Z (Some "g") Missing s false lx1 (blank [2; 2; 2])) = true /\
  same_grid (x_reduce_data_indexed K P p [0; 1; 2]%Z [0]%Z [3]%Z None None Missing s false lx1) (x_reduce_data_indexed_out K P p [0; 1; 2]%Z [0]%Z [3]%Z None None Missing s false lx1 (blank [2; 1; 2])) = true /\
  same_grid (x_resample_data K P p lfreq "rep" Missing s false lx1) (x_resample_data_out K P p lfreq "rep" Missing s false lx1 (blank [2; 2; 2])) = true /\
  same_grid (x_jackknife_data K P p None (Some "rep") Missing s false lx1) (x_jackknife_data_out K P p None (Some "rep") Missing s false lx1 (blank [2; 3; 2])) = true /\
  same_opt (x_rolling_data K P p 2 None false true Missing s false lx1) (x_rolling_data_out K P p 2 None false true Missing s false lx1 (blank_opt [2; 3; 2])) = true /\
  same_opt (x_rolling_exp_data K P p (Plain (Tensor [3] [fr 1 2; fr 1 2; fr 1 4])) None true None true Missing s false lx1)
    (x_rolling_exp_data_out K P p (Plain (Tensor [3] [fr 1 2; fr 1 2; fr 1 4])) None true None true Missing s false lx1 (blank_opt [2; 3; 2])) = true /\
  same_grid (x_reduce_data K P p Missing (Val (DStr "s")) false false lx1) (x_reduce_data_out K P p Missing (Val (DStr "s")) false false lx1 (blank [2; 2])) = true /\
  same_grid (x_reduce_data K P p Missing (Val (DStr "s")) true false lx1) (x_reduce_data_out K P p Missing (Val (DStr "s")) true false lx1 (blank [2; 1; 2])) = true /\
  x_reduce_data_out K P p Missing (Val (DStr "s")) true false lx1 (blank [2; 2]) = Raise EValue /\
  same_grid (rmap (fun y => LG (x_dims y) (to_grid (x_val y))) (x_moments_type 5 "raw" p false false lx1)) (x_moments_type_out 5 "raw" p false false lx1 (blank [2; 3; 2])) = true.
Proof. cbv zeta. repeat split; vm_compute; reflexivity. Qed.
Example data_fills_hypotheses : has_moments ["mom"] lx1 /\ chooses 1 Missing (Val "s") "s" lx1 /\ ~ In "s" ["mom"] /\ chooses_many ["mom"] Missing (Val (DStr "s")) ["s"] lx1 /\
  no_new_names (x_dims lx1) (Labelled (XA ["s"] (Tensor [3] (lz [1; 2; 3]%Z)))).
Proof.
  split; [exact lx1_has|]. split; [apply chooses_ex|]. split; [intros [Q|[]]; discriminate|]. split.
  - split; [intros n [<-|[]]; cbn; auto|]. split; [repeat constructor; intros []|]. split; [discriminate|]. split; [intros n [<-|[]] [Q|[]]; discriminate|]. right; left. split; [reflexivity|]. eauto.
  - split; [split; [reflexivity|split; [repeat constructor; intros []|reflexivity]]|]. intros n [<-|[]]. cbn. auto.
Qed.

(* C150 *)
Definition ov : xarr := XA ["s"; "k"] (Tensor [3; 2] (lz [1; 2; 4; 8; 16; 32]%Z)).
Definition ow : xop := Labelled (XA ["s"] (Tensor [3] (lz [1; 2; 1]%Z))).
Example vals_fills_ex : let s := @Val sname "s" in let R := reader1 in
  same_grid (x_reduce_vals K P R p Missing s ov ow []) (x_reduce_vals_out KK PP R [2] p Missing s ov ow [] (blank [2; 2])) = true /\
  same_grid (x_resample_vals K P R p lfreq "rep" Missing s false ov ow []) (x_resample_vals_out KK PP R [2] p lfreq "rep" Missing s false ov ow [] (blank [2; 2; 2])) = true /\
  same_grid (x_jackknife_vals K P R p None (Some "rep") Missing s false ov ow []) (x_jackknife_vals_out K P R p None (Some "rep") Missing s false ov ow [] (blank [3; 2; 2])) = true /\
  x_jackknife_vals_out K P R p None (Some "rep") Missing s true ov ow [] (blank [3; 2; 2]) = Raise EValue /\
  same_grid (x_jackknife_vals K P R p None (Some "rep") Missing s true ov ow []) (x_jackknife_vals_out K P R p None (Some "rep") Missing s true ov ow [] (blank [2; 3; 2])) = true /\
  same_opt (x_rolling_vals K P R p 2 None false true Missing s false ov ow []) (x_rolling_vals_out KK PP R [2] p 2 None true Missing s false ov ow [] (blank_opt [3; 2; 2])) = true /\
  same_opt (x_rolling_exp_vals K P R p (Plain (Tensor [3] [fr 1 2; fr 1 2; fr 1 4])) true None true Missing s false ov ow [])
    (x_rolling_exp_vals_out KK PP R [2] p (Plain (Tensor [3] [fr 1 2; fr 1 2; fr 1 4])) true None true Missing s false ov ow [] (blank_opt [3; 2; 2])) = true.
Proof. cbv zeta. repeat split; vm_compute; reflexivity. Qed.
Example vals_fills_hypotheses : x_ok ov /\ chooses 0 Missing (Val "s") "s" ov /\ (forall n, In n ["mom"] -> ~ In n (x_dims ov)) /\ no_new_names (x_dims ov) ow.
Proof.
  split; [split; [reflexivity|split; [repeat constructor; cbn; intuition discriminate|reflexivity]]|]. split; [left; cbn; auto|]. split; [intros n [<-|[]]; cbn; intuition discriminate|].
  split; [split; [reflexivity|split; [repeat constructor; intros []|reflexivity]]|]. intros n [<-|[]]. cbn. auto.
Qed.

(* C169: more groups than there are, too few, and other shapes *)
Example groups_ex : let run := x_reduce_data_grouped_out K P p [0; 1; 0]%Z (Some "g") Missing (Val "s") in
  (exists y, x_reduce_data_grouped K P p [0; 1; 0]%Z (Some "g") Missing (Val "s") false lx1 = Ok y /\ lg_dims y = ["mom"; "g"; "k"] /\ gshape (lg_val y) = [2; 2; 2]) /\
  match run false lx1 (blank [2; 3; 2]) with Ok g => gshape g = [2; 3; 2] /\ eqb1 (map (fun i => gget 0%Qc g i) [[0; 2; 0]; [0; 2; 1]; [1; 2; 0]; [1; 2; 1]]) (lz [0; 0; 0; 0]%Z) = true | Raise _ => False end /\
  run false lx1 (blank [2; 1; 2]) = Raise EAssert /\ run false lx1 (blank [2; 3; 3]) = Raise EValue /\ run false lx1 (blank [2; 3]) = Raise EValue.
Proof.
  cbv zeta. split; [|repeat split; vm_compute; reflexivity].
  destruct (x_reduce_data_grouped K P p [0; 1; 0]%Z (Some "g") Missing (Val "s") false lx1) as [y|e] eqn:E; [|exfalso; revert E; vm_compute; discriminate]. exists y. split; [reflexivity|].
  split; [apply (f_equal (fun r => match r with Ok y => lg_dims y | Raise _ => [] end)) in E|apply (f_equal (fun r => match r with Ok y => gshape (lg_val y) | Raise _ => [] end)) in E]; rewrite <- E; vm_compute; reflexivity.
Qed.
(* the order of an array passed as out= wins over mom= *)
Theorem out_order_refuted : exists mom x w out g, x_ok x /\ chooses 0 Missing (Val "s") "s" x /\ no_new_names (x_dims x) w /\ mom = [2] /\
  x_reduce_vals_out KK PP reader1 mom p Missing (Val "s") x w [] out = Ok g /\ gshape g = [2; 4] /\
  (exists y, x_reduce_vals (KK mom) (PP mom) reader1 p Missing (Val "s") x w [] = Ok y /\ gshape (lg_val y) = [2; 2]).
Proof.
  exists [2], ov, ow, (blank [2; 4]). destruct (x_reduce_vals_out KK PP reader1 [2] p Missing (Val "s") ov ow [] (blank [2; 4])) as [g|e] eqn:E; [|exfalso; revert E; vm_compute; discriminate].
  exists g. split; [apply vals_fills_hypotheses|]. split; [apply vals_fills_hypotheses|]. split; [apply vals_fills_hypotheses|]. split; [reflexivity|]. split; [reflexivity|]. split.
  - apply (f_equal (fun r => match r with Ok g => gshape g | Raise _ => [] end)) in E. rewrite <- E. vm_compute. reflexivity.
  - destruct (x_reduce_vals (KK [2]) (PP [2]) reader1 p Missing (Val "s") ov ow []) as [y|e] eqn:F; [|exfalso; revert F; vm_compute; discriminate]. exists y. split; [reflexivity|].
    apply (f_equal (fun r => match r with Ok y => gshape (lg_val y) | Raise _ => [] end)) in F. rewrite <- F. vm_compute. reflexivity.
Qed.
(* groups beyond those of by= are accepted, and are filled with zeros *)
Theorem out_groups_refuted : exists x by_ y out g, has_moments ["mom"] x /\ chooses 1 Missing (Val "s") "s" x /\ x_reduce_data_grouped K P p by_ None Missing (Val "s") false x = Ok y /\
  gshape out <> gshape (lg_val y) /\ x_reduce_data_grouped_out K P p by_ None Missing (Val "s") false x out = Ok g.
Proof.
  exists lx1, [0; 1; 0]%Z. destruct (x_reduce_data_grouped K P p [0; 1; 0]%Z None Missing (Val "s") false lx1) as [y|e] eqn:E; [|exfalso; revert E; vm_compute; discriminate].
  destruct (x_reduce_data_grouped_out K P p [0; 1; 0]%Z None Missing (Val "s") false lx1 (blank [2; 3; 2])) as [g|e] eqn:F; [|exfalso; revert F; vm_compute; discriminate].
  exists y, (blank [2; 3; 2]), g. split; [exact lx1_has|]. split; [apply chooses_ex|]. split; [reflexivity|]. split; [|exact F].
  apply (f_equal (fun r => match r with Ok y => gshape (lg_val y) | Raise _ => [] end)) in E. rewrite <- E. vm_compute. discriminate.
Qed.

(* an empty tuple of axes or dimensions: out is left as it was *)
Theorem reduce_nothing_out : forall {A V} (K : pusher A V) P p axis dim keepdims to_end x out a, select_axis_dim_mult p (XArr (x_dims x)) axis dim Missing Missing false = Ok (a, []) ->
  x_reduce_data_out K P p axis dim keepdims to_end x out = rmap (fun _ => out) (x_reduce_data K P p axis dim keepdims true x).
Proof. intros A V K P p axis dim keepdims to_end x out a H. unfold x_reduce_data_out. now rewrite H. Qed.
Theorem reduce_nothing_fills_refuted : exists x y out, has_moments ["mom"] x /\ x_reduce_data K P p (Val []) Missing false false x = Ok y /\ gshape out = gshape (lg_val y) /\
  x_reduce_data_out K P p (Val []) Missing false false x out = Ok out /\ out <> lg_val y.
Proof.
  exists lx1, (LG ["mom"; "s"; "k"] (to_grid ext1)), (blank [2; 3; 2]). split; [exact lx1_has|]. split; [vm_compute; reflexivity|]. split; [reflexivity|]. split; [vm_compute; reflexivity|].
  intros Q. apply (f_equal (fun g => nth 0 (gdata g) 0%Qc)) in Q. vm_compute in Q. discriminate.
Qed.
(* centred windows: an array of the shape of the result is refused *)
Theorem rolling_centred_fills_refuted : exists x window y out, has_moments ["mom"] x /\ chooses 1 Missing (Val "s") "s" x /\
  x_rolling_data K P p window (Some 1%Z) true true Missing (Val "s") false x = Ok y /\ gshape out = gshape (lg_val y) /\
  x_rolling_data_out K P p window (Some 1%Z) true true Missing (Val "s") false x out = Raise EValue.
Proof.
  exists lx1, 3%Z. destruct (x_rolling_data K P p 3 (Some 1%Z) true true Missing (Val "s") false lx1) as [y|e] eqn:E; [|exfalso; revert E; vm_compute; discriminate].
  exists y, (blank_opt [2; 3; 2]). split; [exact lx1_has|]. split; [apply chooses_ex|]. split; [reflexivity|]. split; [|vm_compute; reflexivity].
  apply (f_equal (fun r => match r with Ok y => gshape (lg_val y) | Raise _ => [] end)) in E. rewrite <- E. vm_compute. reflexivity.
Qed.
(* decays with a dimension that the data do not have: an array of the shape of the
   result is filled with its entries at other places *)
Definition oq : xarr := XA ["s"; "mom"] (Tensor [2; 2] (lz [1; 10; 2; 20]%Z)).
Definition oalpha : xop := Labelled (XA ["q"; "s"] (Tensor [2; 2] [qz 0; fr 1 2; qz 0; fr 1 4])).
Theorem rolling_exp_new_name_fills_refuted : exists x alpha y out g, has_moments ["mom"] x /\ chooses 1 Missing (Val "s") "s" x /\
  x_rolling_exp_data K P p alpha None true (Some 1%Z) true Missing (Val "s") false x = Ok y /\ gshape out = gshape (lg_val y) /\
  x_rolling_exp_data_out K P p alpha None true (Some 1%Z) true Missing (Val "s") false x out = Ok g /\ g <> lg_val y.
Proof.
  exists oq, oalpha. destruct (x_rolling_exp_data K P p oalpha None true (Some 1%Z) true Missing (Val "s") false oq) as [y|e] eqn:E; [|exfalso; revert E; vm_compute; discriminate].
  destruct (x_rolling_exp_data_out K P p oalpha None true (Some 1%Z) true Missing (Val "s") false oq (blank_opt [2; 2; 2])) as [g|e] eqn:F; [|exfalso; revert F; vm_compute; discriminate].
  exists y, (blank_opt [2; 2; 2]), g. split; [|split; [|split; [reflexivity|split; [|split; [exact F|]]]]].
  - split; [split; [reflexivity|split; [repeat constructor; cbn; intuition discriminate|reflexivity]]|]. split; [repeat constructor; intros []|]. split; [now left|]. intros n [<-|[]]; cbn; auto.
  - left. cbn. auto.
  - apply (f_equal (fun r => match r with Ok y => gshape (lg_val y) | Raise _ => [] end)) in E. rewrite <- E. vm_compute. reflexivity.
  - intros ->. apply (f_equal (fun r => match r with Ok y => nth 1 (gdata (lg_val y)) None | Raise _ => None end)) in E. apply (f_equal (fun r => match r with Ok g => nth 1 (gdata g) None | Raise _ => None end)) in F.
    rewrite <- E in F. vm_compute in F. discriminate.
Qed.
