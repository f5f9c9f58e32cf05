(* Concrete cases for the statistics of Datasets (C185 to C190), and claims that fail. *)
From Coq Require Import String.
From Verif Require Import Base BaseLemmas Checks ModelPush ModelKernels ModelIndex ModelAxes ModelState ModelParams ModelNd ModelWrap ModelLabel ModelMoments ModelConstruct ModelMomentsX ModelDataset ModelMethodsS ModelMomentsS
  Spec SpecAxes SpecNd PropLabelled SpecLabel SpecMethodsX SpecMoments SpecMomentsX SpecDataset SpecMethodsS
  ProofArrays ProofDataset PropAxes PropLabelCheck PropMomentsXCheck PropDataset PropDatasetCheck PropMethodsX PropMethodsXCheck PropShapeCheck PropMethodsS PropMethodsSCheck PropMomentsS PropStatsS.
Local Open Scope string_scope.
Local Open Scope nat_scope.

(* moments up to order 2 at two positions of x, moments first; at no position; no moments *)
Definition ta : xarr := XA ["mom"; "x"] (Tensor [3; 2] (lz [1; 2; 3; 4; 5; 6]%Z)).
Definition tb : xarr := XA ["mom"] (Tensor [3] (lz [7; 8; 9]%Z)).
Definition ts : xset := [("a", ta); ("b", tb); ("n", sn)].
Definition tc : csdata := CS ts (params_for ["mom"]).
Lemma ts_ok : set_ok ts.
Proof. arrays. Qed.
Definition same_n := ("n", ["x"], [2], lz [7; 8]%Z).

(* C185 *)
Example select_moment_set_ex : set_ok ts /\ SpecDataset.moment_names ["mom"] /\ map (fun v => has_names ["mom"] (snd v)) ts = [true; true; false] /\ coords_fit ["mom"] (Some ["u"]) /\ ~ coords_fit ["mom"] (Some ["u"; "v"]) /\ own_dim ["mom"] false "ave" /\
  rseteqb (ds_select_moment (params_for ["mom"]) "var" true "variable" None ts) [("a", ["x"], [2], lz [5; 6]%Z); ("b", [], [], lz [9]%Z); same_n] = true /\
  rseteqb (ds_select_moment (params_for ["mom"]) "ave" false "d" (Some ["u"]) ts) [("a", ["x"; "d"], [2; 1], lz [3; 4]%Z); ("b", ["d"], [1], lz [8]%Z); same_n] = true /\
  ds_select_moment (params_for ["mom"]) "ave" false "d" (Some ["u"; "v"]) ts = Raise EValue /\
  ds_select_moment (params_for ["mom"]) "ave" false "x" None ts = Raise EValue.
Proof.
  split; [exact ts_ok|]. split; [exact mom_names|]. split; [reflexivity|]. split; [reflexivity|]. split; [intros H; discriminate H|]. split; [split; [now left|now right]|].
  repeat split; vm_compute; reflexivity.
Qed.
(* C186: a number for one moment, a Dataset for another *)
Definition tw : xset := [("n", sn); ("b", XA [] (Tensor [] (lz [40]%Z))); ("a", XA ["x"] (Tensor [2] (lz [20; 30]%Z)))].
Definition tnames : list (string * dop) := [("weight", DArr (Plain (Tensor [] (lz [1]%Z)))); ("ave", DSet tw)].
Example assign_moment_set_ex : (forall nv, In nv tnames -> fits ts (snd nv)) /\
  (forall a b, In a (map snd tnames) -> In b (map snd tnames) -> forall x y, In x (arrays_of a) -> In y (arrays_of b) -> sizes_agree x y) /\
  rseteqb (ds_assign_moment (params_for ["mom"]) tnames true None ts) [("a", ["x"; "mom"], [2; 3], lz [1; 20; 5; 1; 30; 6]%Z); ("b", ["mom"], [3], lz [1; 40; 9]%Z); same_n] = true.
Proof.
  split; [intros nv [<-|[<-|[]]]; [exact I|fitset]|]. split; [|vm_compute; reflexivity].
  intros a b Ha Hb x y Hx Hy. cbn in Ha, Hb. each_in; cbn in Hx, Hy; each_in; agree.
Qed.
(* C187 *)
Example moments_type_set_ex :
  rseteqb (ds_moments_type 3 "raw" (params_for ["mom"]) false false ts) [("a", ["mom"; "x"], [3; 2], lz [1; 2; 3; 4; 14; 22]%Z); ("b", ["mom"], [3], lz [7; 8; 73]%Z); same_n] = true /\
  rseteqb (ds_moments_type 3 "raw" (params_for ["mom"]) true false ts) [("a", ["x"; "mom"], [2; 3], lz [1; 3; 14; 2; 4; 22]%Z); ("b", ["mom"], [3], lz [7; 8; 73]%Z); same_n] = true.
Proof. split; vm_compute; reflexivity. Qed.
(* C188 *)
Example stats_set_ex :
  rseteqb (cs_weight tc) [("a", ["x"], [2], lz [1; 2]%Z); ("b", [], [], lz [7]%Z); same_n] = true /\
  rseteqb (cs_mean tc true) [("a", ["x"], [2], lz [3; 4]%Z); ("b", [], [], lz [8]%Z); same_n] = true /\
  rseteqb (cs_cmom tc) [("a", ["x"; "mom"], [2; 3], lz [1; 0; 5; 1; 0; 6]%Z); ("b", ["mom"], [3], lz [1; 0; 9]%Z); same_n] = true.
Proof. repeat split; vm_compute; reflexivity. Qed.
Example rmom_set_ex : (forall v, In v ts -> has_names ["mom"] (snd v) = true -> Forall (fun d => 2 <= dim_size (snd v) d <= S 3) ["mom"]) /\
  rseteqb (cs_rmom 3 tc) [("a", ["x"; "mom"], [2; 3], lz [1; 3; 14; 1; 4; 22]%Z); ("b", ["mom"], [3], lz [1; 8; 73]%Z); same_n] = true.
Proof.
  split; [|vm_compute; reflexivity]. intros v Iv M. cbn in Iv. each_in; try discriminate M; (constructor; [vm_compute; lia|constructor]).
Qed.
(* C189 *)
Example mul_named_ex : has_moments ["mom"] ta /\ Forall (lt 0) (map (dim_size ta) ["mom"]) /\
  xeqb (rmap cx_obj (cx_mul (CX ta (params_for ["mom"])) (qz 10))) ["x"; "mom"] (Tensor [2; 3] (lz [10; 3; 5; 20; 4; 6]%Z)) = true.
Proof.
  split; [|split; [constructor; [vm_compute; lia|constructor]|vm_compute; reflexivity]].
  split; [one_arr|]. split; [nodup|]. split; [now left|]. intros n [<-|[]]. now left.
Qed.
Example mul_set_ex : (forall v, In v ts -> has_names ["mom"] (snd v) = true -> Forall (lt 0) (map (dim_size (snd v)) ["mom"])) /\
  cseqb (cs_mul tc (qz 10)) [("a", (["x"; "mom"], Tensor [2; 3] (lz [10; 3; 5; 20; 4; 6]%Z))); ("b", (["mom"], Tensor [3] (lz [70; 8; 9]%Z))); ("n", (["x"], Tensor [2] (lz [7; 8]%Z)))] = true.
Proof.
  split; [|vm_compute; reflexivity]. intros v Iv M. cbn in Iv. each_in; try discriminate M; (constructor; [vm_compute; lia|constructor]).
Qed.

(* ---- claims that fail ------------------------------------------------------------------------- *)

(* C190: mean() of a Dataset raises only if that of a variable does: a variable without
   moments that has a dimension "variable" of another size is enough *)
Definition t2 : xset := [("a", XA ["m0"; "m1"] (Tensor [2; 2] (lz [1; 2; 3; 4]%Z))); ("n", XA ["variable"] (Tensor [3] (lz [7; 8; 9]%Z)))].
Theorem mean_set_refuted : exists s md, set_ok s /\ SpecDataset.moment_names md /\
  (forall v, In v s -> has_names md (snd v) = true -> exists y, cx_mean (CX (snd v) (params_for md)) true = Ok y) /\
  cs_mean (CS s (params_for md)) true = Raise EValue.
Proof.
  exists t2, ["m0"; "m1"]. split; [arrays|]. split; [split; [nodup|now right]|]. split; [|vm_compute; reflexivity].
  intros v Iv M. cbn in Iv. each_in; [|discriminate M]. eexists. apply (xeqb_ok _ ["variable"] (Tensor [2] (lz [3; 2]%Z))). vm_compute. reflexivity.
Qed.
(* C191: c * 1 is c: the moment dimensions go last *)
Theorem mul_one_refuted : exists x md, has_moments md x /\ Forall (lt 0) (map (dim_size x) md) /\
  exists y, cx_mul (CX x (params_for md)) 1%Qc = Ok (CX y (params_for md)) /\ x_dims y <> x_dims x.
Proof.
  exists ta, ["mom"]. destruct mul_named_ex as (H & P & _). split; [exact H|]. split; [exact P|]. destruct (mul_named ta ["mom"] 1%Qc H P) as (y & Ey & _ & Dy & _). exists y. split; [exact Ey|]. rewrite Dy. cbn. discriminate.
Qed.
