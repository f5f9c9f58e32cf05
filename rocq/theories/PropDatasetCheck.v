(* Concrete Datasets for the theorems about functions of Datasets; what differs from
   functions of DataArrays. *)
From Coq Require Import String.
From Verif Require Import Base BaseLemmas Checks ModelPush ModelPushCov ModelKernels ModelIndex ModelAxes ModelParams ModelWrap ModelNd ModelLabel ModelDataset Spec SpecAxes SpecNd SpecLabel SpecLabelTwo SpecLabelVals SpecDataset
  Laws ProofSpec ProofAxes ProofArrays ProofMulti PropAxes PropLabelled PropNd PropNdUse PropNdVals ProofLabel PropLabel PropLabelReduce PropLabelTwo PropLabelJack PropLabelExp PropLabelUse PropLabelCheck PropLabelVals PropLabelValsMore PropLabelValsCheck ProofDataset PropDataset PropDatasetTwo PropDatasetReduce PropDatasetVals PropDatasetValsMore PropDatasetSampler.
Local Open Scope string_scope.
Local Open Scope nat_scope.

Fixpoint seteqb (l : lset Qc) (e : list (sname * list sname * list nat * list Qc)) : bool :=
  match l, e with
  | [], [] => true
  | (n, g) :: l, (m, dims, s, q) :: e => String.eqb n m && lgeqb (Ok g) dims s q && seteqb l e
  | _, _ => false
  end%bool.
Definition rseteqb (r : res (lset Qc)) e : bool := match r with Ok l => seteqb l e | Raise _ => false end.
Fixpoint soeqb (l : lset (option Qc)) (e : list (sname * list sname * list nat * list (option Qc))) : bool :=
  match l, e with
  | [], [] => true
  | (n, g) :: l, (m, dims, s, q) :: e => String.eqb n m && logeqb (Ok g) dims s q && soeqb l e
  | _, _ => false
  end%bool.
Definition rsoeqb (r : res (lset (option Qc))) e : bool := match r with Ok l => soeqb l e | Raise _ => false end.

(* moments, an array that has the dimension of the samples only, one that has none *)
Definition db : xarr := XA ["s"; "u"] (Tensor [3; 1] (lz [7; 8; 9]%Z)).
Definition dc : xarr := XA ["k"; "u"] (Tensor [2; 1] (lz [5; 6]%Z)).
Definition dset : xset := [("a", lx1); ("b", db); ("c", dc)].
Definition dset2 : xset := [("a", lx1); ("c", dc)].
Lemma names2 (a b : sname) : a <> b -> NoDup [a; b].
Proof. intros D. repeat constructor; cbn; intuition. Qed.
Lemma dset_ok : set_ok dset.
Proof.
  split; [repeat constructor; cbn; intuition discriminate|]. split.
  - intros v [<-|[<-|[<-|[]]]]; [apply lx1_moments| |]; (split; [reflexivity|split; [apply names2; discriminate|reflexivity]]).
  - intros v w [<-|[<-|[<-|[]]]] [<-|[<-|[<-|[]]]] n; cbn [snd]; unfold db, dc, lx1; cbn [x_dims]; intros H1 H2; cbn in H1, H2; decompose [or] H1; decompose [or] H2; subst; try contradiction; try discriminate; reflexivity.
Qed.
Lemma dset2_ok : set_ok dset2.
Proof.
  split; [repeat constructor; cbn; intuition discriminate|]. split.
  - intros v Iv. apply dset_ok. cbn in *. tauto.
  - intros v w Iv Iw. apply dset_ok; cbn in *; tauto.
Qed.
Lemma mom_names : moment_names ["mom"].
Proof. split; [repeat constructor; intros []|now left]. Qed.
Example dataset_ex : set_ok dset /\ moment_names ["mom"] /\ ~ In "s" ["mom"] /\ moments_where (packer1 1) ["s"] ["mom"] dset /\ new_free "s" (Some "g") dset /\ set_size dset "s" = 3 /\
  has_names ["s"; "mom"] lx1 = true /\ has_names ["s"; "mom"] db = false /\ has_names ["s"; "mom"] dc = false /\ (forall n, In n ["s"; "k"; "mom"] -> has_dim dset n).
Proof.
  split; [exact dset_ok|]. split; [exact mom_names|]. split; [cbn; intuition discriminate|]. split; [|split; [|split; [reflexivity|split; [reflexivity|split; [reflexivity|split; [reflexivity|]]]]]].
  - intros v [<-|[<-|[<-|[]]]] H; try discriminate. exact lx1_moments.
  - intros n [= <-] _ v [<-|[<-|[<-|[]]]]; cbn; intuition discriminate.
  - intros n [<-|[<-|[<-|[]]]]; exists ("a", lx1); (split; [now left|]); cbn; auto.
Qed.
(* every variable alone; the others keep their entries, with the dimension of the
   samples moved like that of the moments *)
Example cumulative_set_ex : let K := pusher1 5 1 in let P := packer1 1 in let p := params_for ["mom"] in
  rseteqb (ds_cumulative K P p false Missing (Val "s") false dset)
    [("a", ["mom"; "s"; "k"], [2; 3; 2], (lz [1; 2; 4; 6; 9; 12; 10; 20; 25]%Z ++ [fr 100 3; fr 350 9; fr 140 3])%list); ("b", ["s"; "u"], [3; 1], lz [7; 8; 9]%Z); ("c", ["k"; "u"], [2; 1], lz [5; 6]%Z)] = true /\
  rseteqb (ds_cumulative K P p false Missing (Val "s") true dset)
    [("a", ["k"; "s"; "mom"], [2; 3; 2], [qz 1; qz 10; qz 4; qz 25; qz 9; fr 350 9; qz 2; qz 20; qz 6; fr 100 3; qz 12; fr 140 3]); ("b", ["u"; "s"], [1; 3], lz [7; 8; 9]%Z); ("c", ["k"; "u"], [2; 1], lz [5; 6]%Z)] = true /\
  ds_cumulative K P p false Missing (Val "mom") false dset = Raise EValue.
Proof. repeat split; vm_compute; reflexivity. Qed.
Example rolling_set_ex : let K := pusher1 5 1 in let P := packer1 1 in let p := params_for ["mom"] in
  rsoeqb (ds_rolling_data K P p 2 None false true Missing (Val "s") false dset2)
    [("a", ["mom"; "s"; "k"], [2; 3; 2], (map Some (lz [0; 0; 4; 6; 8; 10]%Z) ++ [None; None] ++ map Some [qz 25; fr 100 3; fr 85 2; qz 52])%list); ("c", ["k"; "u"], [2; 1], map Some (lz [5; 6]%Z))] = true.
Proof. repeat split; vm_compute; reflexivity. Qed.
Example grouped_set_ex : let K := pusher1 5 1 in let P := packer1 1 in let p := params_for ["mom"] in
  zmax [0; 1; 0]%Z = Ok 1%Z /\ (forall w, In w dset2 -> In "s" (x_dims (snd w)) -> incl ["mom"] (x_dims (snd w)) \/ dim_size (snd w) "s" = Z.to_nat (1 + 1)) /\
  rseteqb (ds_reduce_data_grouped K P p [0; 1; 0]%Z (Some "g") Missing (Val "s") false dset2)
    [("a", ["mom"; "g"; "k"], [2; 2; 2], [qz 6; qz 8; qz 3; qz 4; fr 130 3; qz 50; qz 30; qz 40]); ("c", ["k"; "u"], [2; 1], lz [5; 6]%Z)] = true /\
  ds_reduce_data_grouped K P p [0; 1; 0]%Z (Some "k") Missing (Val "s") false dset2 = Raise EValue.
Proof. split; [reflexivity|]. split; [intros w [<-|[<-|[]]] H; [left; intros n [<-|[]]; now left|cbn in H; intuition discriminate]|]. repeat split; vm_compute; reflexivity. Qed.
Example indexed_set_ex : let K := pusher1 5 1 in let P := packer1 1 in let p := params_for ["mom"] in
  validate_index (dim_size lx1 "s") [0; 1; 2; 2]%Z [0; 2]%Z [2; 4]%Z = Ok tt /\
  rseteqb (ds_reduce_data_indexed K P p [0; 1; 2; 2]%Z [0; 2]%Z [2; 4]%Z None (Some "g") Missing (Val "s") false dset2)
    [("a", ["mom"; "g"; "k"], [2; 2; 2], [qz 4; qz 6; qz 10; qz 12; qz 25; fr 100 3; qz 50; qz 60]); ("c", ["k"; "u"], [2; 1], lz [5; 6]%Z)] = true /\
  ds_reduce_data_indexed K P p [0; 1; 2; 3]%Z [0; 2]%Z [2; 4]%Z None (Some "g") Missing (Val "s") false dset2 = Raise EValue /\
  ds_reduce_data_indexed K P p [0; 1]%Z [0]%Z [2]%Z None (Some "g") Missing (Val "z") false dset2 = Raise EKey.
Proof. repeat split; vm_compute; reflexivity. Qed.
(* one name: the variable without all the dimensions is passed on; several names: each
   variable is reduced over those it has *)
Example reduce_set_ex : let K := pusher1 5 1 in let P := packer1 1 in let p := params_for ["mom"] in
  let a2 : xset := [("a", lx1); ("e", XA ["s"; "mom"] (Tensor [3; 2] (lz [1; 10; 3; 30; 5; 50]%Z)))] in
  rseteqb (ds_reduce_data K P p Missing (Val (DStr "s")) false false None dset) [("a", ["mom"; "k"], [2; 2], [qz 9; qz 12; fr 350 9; fr 140 3]); ("b", ["s"; "u"], [3; 1], lz [7; 8; 9]%Z); ("c", ["k"; "u"], [2; 1], lz [5; 6]%Z)] = true /\
  rseteqb (ds_reduce_data K P p Missing (Val (DSeq ["k"; "s"])) false false None a2) [("a", ["mom"], [2], [qz 21; fr 130 3]); ("e", ["mom"], [2], [qz 9; fr 350 9])] = true /\
  rseteqb (ds_reduce_data K P p Missing (Val (DSeq ["k"; "s"])) false true (Some false) a2) [("a", ["mom"], [2], [qz 21; fr 130 3]); ("e", ["s"; "mom"], [3; 2], lz [1; 10; 3; 30; 5; 50]%Z)] = true /\
  rseteqb (ds_reduce_data K P p Missing PyNone false true None a2) [("a", ["mom"], [2], [qz 21; fr 130 3]); ("e", ["mom"], [2], [qz 9; fr 350 9])] = true /\
  ds_reduce_data K P p Missing (Val (DStr "z")) false false None dset = Raise EValue.
Proof. repeat split; vm_compute; reflexivity. Qed.
Definition dfreq : xset := [("c", lfreq); ("a", XA ["rep"; "s"] (Tensor [2; 3] (lz [1; 1; 1; 0; 2; 1]%Z)))].
Lemma lfreq_ok : x_ok lfreq.
Proof. split; [reflexivity|]. split; [apply names2; discriminate|reflexivity]. Qed.
Example resample_set_ex : let K := pusher1 5 1 in let P := packer1 1 in let p := params_for ["mom"] in
  fits dset2 (DSet dfreq) /\ only_dims ["rep"; "s"] (DSet dfreq) /\ (forall v, In v dset2 -> ~ In "rep" (x_dims (snd v))) /\ counts_named (its_part "a" (DSet dfreq)) "rep" "s" 2 3 /\
  rseteqb (ds_resample_data K P p (DSet dfreq) "rep" Missing (Val "s") false dset2)
    [("a", ["mom"; "rep"; "k"], [2; 2; 2], [qz 9; qz 12; qz 11; qz 14; fr 350 9; fr 140 3; fr 430 11; fr 340 7]); ("c", ["k"; "u"], [2; 1], lz [5; 6]%Z)] = true /\
  rseteqb (ds_resample_data K P p (DArr (Labelled lfreq)) "rep" Missing (Val "s") true dset2)
    [("a", ["k"; "rep"; "mom"], [2; 2; 2], [qz 9; fr 350 9; qz 11; fr 430 11; qz 12; fr 140 3; qz 14; fr 340 7]); ("c", ["k"; "u"], [2; 1], lz [5; 6]%Z)] = true.
Proof.
  split; [|split; [|split; [|split; [|split; vm_compute; reflexivity]]]].
  - split; [split; [|split]|split].
    + repeat constructor; cbn; intuition discriminate.
    + intros v [<-|[<-|[]]]; [exact lfreq_ok|split; [reflexivity|split; [apply names2; discriminate|reflexivity]]].
    + intros v w [<-|[<-|[]]] [<-|[<-|[]]] n; cbn; intros H1 H2; decompose [or] H1; decompose [or] H2; subst; try contradiction; try discriminate; reflexivity.
    + intros n. cbn. tauto.
    + intros v w [<-|[<-|[]]] [<-|[<-|[]]] n; cbn; intros H1 H2; decompose [or] H1; decompose [or] H2; subst; try contradiction; try discriminate; reflexivity.
  - intros x [<-|[<-|[]]] n; cbn; tauto.
  - intros v [<-|[<-|[]]]; cbn; intuition discriminate.
  - split; [split; [reflexivity|split; [apply names2; discriminate|reflexivity]]|]. split; [discriminate|]. split; [|split; reflexivity]. intros n. cbn. intuition.
Qed.
Definition dalpha : xarr := XA ["s"] (Tensor [3] [fr 1 2; fr 1 4; fr 1 2]).
Example rolling_exp_set_ex : let K := pusher1 5 1 in let P := packer1 1 in let p := params_for ["mom"] in
  fits dset2 (DArr (Labelled dalpha)) /\ decays_given "s" (except_name (x_dims lx1) ["s"; "mom"]) lx1 (Labelled dalpha) None 0 /\
  rsoeqb (ds_rolling_exp_data K P p (DArr (Labelled dalpha)) None true None true Missing (Val "s") false dset2)
    (match x_rolling_exp_data K P p (Labelled dalpha) None true None true Missing (Val "s") false lx1 with Ok g => [("a", lg_dims g, gshape (lg_val g), gdata (lg_val g)); ("c", ["k"; "u"], [2; 1], map Some (lz [5; 6]%Z))] | _ => [] end) = true /\
  rsoeqb (ds_rolling_exp_data K P p (DArr (Plain (Tensor [3] [fr 1 2; fr 1 4; fr 1 2]))) None true None true Missing (Val "s") false dset2)
    (match x_rolling_exp_data K P p (Labelled dalpha) None true None true Missing (Val "s") false lx1 with Ok g => [("a", lg_dims g, gshape (lg_val g), gdata (lg_val g)); ("c", ["k"; "u"], [2; 1], map Some (lz [5; 6]%Z))] | _ => [] end) = true.
Proof.
  assert (Ok : x_ok dalpha) by (split; [reflexivity|split; [repeat constructor; intros []|reflexivity]]).
  split; [|split; [|split; vm_compute; reflexivity]].
  - split; [exact Ok|]. intros v [<-|[<-|[]]] n; cbn; intros H1 H2; decompose [or] H1; decompose [or] H2; subst; try contradiction; try discriminate; reflexivity.
  - split; [exact Ok|]. split; [now left|]. split; [intros n [<-|[]]; cbn; auto|]. intros n [<-|[]]. reflexivity.
Qed.
Example jackknife_set_ex : let K := pusher1 5 1 in let P := packer1 1 in let p := params_for ["mom"] in
  rseteqb (ds_jackknife_data K P p None (Some "rep") Missing (Val "s") false dset)
    [("a", ["mom"; "rep"; "k"], [2; 3; 2], [qz 8; qz 10; qz 6; qz 8; qz 4; qz 6; fr 85 2; qz 52; fr 130 3; qz 50; qz 25; fr 100 3]); ("b", ["rep"; "u"], [3; 1], lz [7; 8; 9]%Z); ("c", ["k"; "u"], [2; 1], lz [5; 6]%Z)] = true /\
  fits dset2 (DArr (Labelled lred)) /\ new_free_in "s" (Some "rep") (DArr (Labelled lred)) /\
  rseteqb (ds_jackknife_data K P p (Some (DArr (Labelled lred), None)) (Some "rep") Missing (Val "s") false dset2)
    [("a", ["mom"; "rep"; "k"], [2; 3; 2], [qz 8; qz 10; qz 6; qz 8; qz 4; qz 6; fr 65 2; qz 44; qz 30; qz 40; qz 5; qz 20]); ("c", ["k"; "u"], [2; 1], lz [5; 6]%Z)] = true.
Proof.
  split; [vm_compute; reflexivity|]. split; [|split; [|vm_compute; reflexivity]].
  - split; [split; [reflexivity|split; [apply names2; discriminate|reflexivity]]|]. intros v [<-|[<-|[]]] n; cbn; intros H1 H2; decompose [or] H1; decompose [or] H2; subst; try contradiction; try discriminate; reflexivity.
  - intros n [= <-] _ x [<-|[]]. cbn. intuition discriminate.
Qed.

(* ---- values ----------------------------------------------------------------------------------------- *)

Definition dvals : xset := [("a", lv); ("c", dc)].
Lemma dvals_ok : set_ok dvals.
Proof.
  split; [repeat constructor; cbn; intuition discriminate|]. split.
  - intros v [<-|[<-|[]]]; [apply lv_ok|split; [reflexivity|split; [apply names2; discriminate|reflexivity]]].
  - intros v w [<-|[<-|[]]] [<-|[<-|[]]] n; cbn; intros H1 H2; decompose [or] H1; decompose [or] H2; subst; try contradiction; try discriminate; reflexivity.
Qed.
Definition dsz (n : sname) : nat := if String.eqb n "s" then 3 else if String.eqb n "u" then 1 else 2.
Lemma dvals_given : values_given (packer1 1) "s" ["mom"] dsz lv (Labelled lw) [].
Proof.
  split; [reflexivity|]. split; [|split; [repeat constructor; intros []|split; [intros n [<-|[]]; cbn; intuition discriminate|reflexivity]]].
  intros o [<-|[<-|[]]]; cbn [value_given]; (split; [apply lv_ok|]); (split; [cbn; auto|]); intros n [<-|[<-|[]]]; reflexivity.
Qed.
Example values_set_ex : set_ok dvals /\ moments_free ["mom"] dvals /\ all_fit dvals [DArr (Labelled lw)] /\ (forall a, In a [DArr (Labelled lw)] -> one_axis a) /\
  has_values "s" [DArr (Labelled lw)] ("a", lv) = true /\ values_where (packer1 1) "s" ["mom"] dsz dvals (DArr (Labelled lw)) [].
Proof.
  split; [exact dvals_ok|]. split; [intros v m [<-|[<-|[]]] [<-|[]]; cbn; intuition discriminate|]. split; [|split; [intros a [<-|[]]; exact I|split; [reflexivity|split; [split|]]]].
  - split.
    + intros a [<-|[]]. split; [apply lv_ok|]. intros v [<-|[<-|[]]] n; cbn; intros H1 H2; decompose [or] H1; decompose [or] H2; subst; try contradiction; try discriminate; reflexivity.
    + intros a b x y [<-|[]] [<-|[]] [<-|[]] [<-|[]] n _ _. reflexivity.
  - intros v n [<-|[<-|[]]]; cbn; intros H; decompose [or] H; subst; try contradiction; reflexivity.
  - intros a x n [<-|[]] [<-|[]]; cbn; intros H; decompose [or] H; subst; try contradiction; reflexivity.
  - intros v [<-|[<-|[]]] H; [exact dvals_given|discriminate].
Qed.
Example reduce_vals_set_ex : let K := pusher1 5 1 in let P := packer1 1 in let R := reader1 in let p := params_for ["mom"] in
  rseteqb (ds_reduce_vals K P R p Missing (Val "s") dvals (DArr (Labelled lw)) []) [("a", ["k"; "t"; "mom"], [2; 2; 2], [qz 4; fr 9 4; qz 4; qz 2; qz 4; fr 45 2; qz 4; qz 20]); ("c", ["k"; "u"], [2; 1], lz [5; 6]%Z)] = true /\
  rseteqb (ds_jackknife_vals K P R p None (Some "rep") Missing (Val "s") false dvals (DArr (Labelled lw)) [])
    (match x_jackknife_vals K P R p None (Some "rep") Missing (Val "s") false lv (Labelled lw) [] with Ok g => [("a", lg_dims g, gshape (lg_val g), gdata (lg_val g)); ("c", ["k"; "u"], [2; 1], lz [5; 6]%Z)] | _ => [] end) = true /\
  rsoeqb (ds_rolling_vals K P R p 2 None false true Missing (Val "s") false dvals (DArr (Labelled lw)) [])
    (match x_rolling_vals K P R p 2 None false true Missing (Val "s") false lv (Labelled lw) [] with Ok g => [("a", lg_dims g, gshape (lg_val g), gdata (lg_val g)); ("c", ["k"; "u"], [2; 1], map Some (lz [5; 6]%Z))] | _ => [] end) = true /\
  rsoeqb (ds_rolling_exp_vals K P R p (DArr (Labelled dalpha)) true None true Missing (Val "s") false dvals (DArr (Labelled lw)) [])
    (match x_rolling_exp_vals K P R p (Labelled dalpha) true None true Missing (Val "s") false lv (Labelled lw) [] with Ok g => [("a", lg_dims g, gshape (lg_val g), gdata (lg_val g)); ("c", ["k"; "u"], [2; 1], map Some (lz [5; 6]%Z))] | _ => [] end) = true /\
  rseteqb (ds_resample_vals K P R p (DArr (Labelled lfreq)) "rep" Missing (Val "s") false dvals (DArr (Labelled lw)) [])
    (match x_resample_vals K P R p (Labelled lfreq) "rep" Missing (Val "s") false lv (Labelled lw) [] with Ok g => [("a", lg_dims g, gshape (lg_val g), gdata (lg_val g)); ("c", ["k"; "u"], [2; 1], lz [5; 6]%Z)] | _ => [] end) = true.
Proof. repeat split; vm_compute; reflexivity. Qed.

(* ---- unpaired tables ------------------------------------------------------------------------------- *)

Definition dtable (n : sname) : xarr := XA ["rep"; "s"] (Tensor [2; 3] (lz (if String.eqb n "a" then [1; 1; 1; 0; 2; 1] else [3; 0; 0; 0; 0; 3])%Z)).
Example unpaired_ex : own_tables "rep" "s" 2 dtable dset2 /\ unpaired_tables ["s"; "mom"] dtable dset2 = DArr (Labelled (dtable "a")) /\
  List.length (filter (fun v => has_names ["s"; "mom"] (snd v)) dset2) = 1 /\
  (let s2 : xset := [("a", lx1); ("e", lx2)] in unpaired_tables ["s"; "mom"] dtable s2 = DSet [("a", dtable "a"); ("e", dtable "e")] /\
   rseteqb (ds_resample_data (pusher1 5 1) (packer1 1) (params_for ["mom"]) (unpaired_tables ["s"; "mom"] dtable s2) "rep" Missing (Val "s") false s2)
     [("a", ["mom"; "rep"; "k"], [2; 2; 2], [qz 9; qz 12; qz 11; qz 14; fr 350 9; fr 140 3; fr 430 11; fr 340 7]);
      ("e", ["k"; "mom"; "rep"], [2; 2; 2], lz [3; 15; 10; 50; 6; 18; 20; 60]%Z)] = true).
Proof.
  split; [|split; [reflexivity|split; [reflexivity|split; [reflexivity|vm_compute; reflexivity]]]].
  intros n. unfold dtable. split; [|split; reflexivity]. split; [destruct (String.eqb n "a"); reflexivity|]. split; [apply names2; discriminate|reflexivity].
Qed.

(* ---- what differs from functions of DataArrays ------------------------------------------------------- *)

(* weights without the dimension: an error for the DataArray, the Dataset is returned
   without being reduced *)
Theorem missing_dimension_set_refuted : exists (x w : xarr), let K := pusher1 5 1 in let P := packer1 1 in let R := reader1 in let p := params_for ["mom"] in
  set_ok [("a", x)] /\ fits [("a", x)] (DArr (Labelled w)) /\ x_reduce_vals K P R p Missing (Val "s") x (Labelled w) [] = Raise EValue /\
  ds_reduce_vals K P R p Missing (Val "s") [("a", x)] (DArr (Labelled w)) [] = Ok [("a", copied (fun q => q) x)].
Proof.
  exists lv, (XA ["k"] (Tensor [2] (lz [1; 2]%Z))). cbv zeta.
  assert (Kw : x_ok (XA ["k"] (Tensor [2] (lz [1; 2]%Z)))) by (split; [reflexivity|split; [repeat constructor; intros []|reflexivity]]).
  split; [split; [repeat constructor; intros []|split; [intros v [<-|[]]; apply lv_ok|intros v w [<-|[]] [<-|[]] n _ _; reflexivity]]|]. split; [|split; vm_compute; reflexivity].
  split; [exact Kw|]. intros v [<-|[]] n; cbn; intros H1 H2; decompose [or] H1; decompose [or] H2; subst; try contradiction; try discriminate; reflexivity.
Qed.
(* moments that are grouped along a dimension of another variable *)
Theorem grouped_with_other_refuted : exists (s : xset) g, set_ok s /\
  (forall v, In v s -> has_names ["s"; "mom"] (snd v) = true -> x_reduce_data_grouped (pusher1 5 1) (packer1 1) (params_for ["mom"]) [0; 1; 0]%Z None Missing (Val "s") false (snd v) = Ok g) /\
  ds_reduce_data_grouped (pusher1 5 1) (packer1 1) (params_for ["mom"]) [0; 1; 0]%Z None Missing (Val "s") false s = Raise EValue.
Proof.
  destruct (x_reduce_data_grouped (pusher1 5 1) (packer1 1) (params_for ["mom"]) [0; 1; 0]%Z None Missing (Val "s") false lx1) as [g|e] eqn:E.
  - exists dset, g. split; [exact dset_ok|]. split; [intros v [<-|[<-|[<-|[]]]] H; [exact E|discriminate|discriminate]|vm_compute; reflexivity].
  - exfalso. assert (Q : lgeqb (x_reduce_data_grouped (pusher1 5 1) (packer1 1) (params_for ["mom"]) [0; 1; 0]%Z None Missing (Val "s") false lx1) ["mom"; "s"; "k"] [2; 2; 2] [qz 6; qz 8; qz 3; qz 4; fr 130 3; qz 50; qz 30; qz 40] = true) by (vm_compute; reflexivity). rewrite E in Q. discriminate.
Qed.
(* plain weights with two axes are read along axis 0 of the first variable *)
Definition sq : xarr := XA ["k"; "s"] (Tensor [2; 2] (lz [1; 2; 10; 20]%Z)).
Theorem plain_weights_set_refuted : exists x w g h, let K := pusher1 5 1 in let P := packer1 1 in let R := reader1 in let p := params_for ["mom"] in
  set_ok [("a", x)] /\ x_reduce_vals K P R p Missing (Val "s") x (Plain w) [] = Ok g /\ ds_reduce_vals K P R p Missing (Val "s") [("a", x)] (DArr (Plain w)) [] = Ok [("a", h)] /\ g <> h.
Proof.
  pose (w := Tensor [2; 2] (lz [1; 3; 1; 1]%Z)).
  destruct (x_reduce_vals (pusher1 5 1) (packer1 1) reader1 (params_for ["mom"]) Missing (Val "s") sq (Plain w) []) as [g|e] eqn:E1.
  2: { exfalso. assert (Q : lgeqb (x_reduce_vals (pusher1 5 1) (packer1 1) reader1 (params_for ["mom"]) Missing (Val "s") sq (Plain w) []) ["k"; "mom"] [2; 2] [qz 4; fr 7 4; qz 2; qz 15] = true) by (vm_compute; reflexivity). rewrite E1 in Q. discriminate. }
  assert (Q1 : lgeqb (x_reduce_vals (pusher1 5 1) (packer1 1) reader1 (params_for ["mom"]) Missing (Val "s") sq (Plain w) []) ["k"; "mom"] [2; 2] [qz 4; fr 7 4; qz 2; qz 15] = true) by (vm_compute; reflexivity). rewrite E1 in Q1.
  destruct (ds_reduce_vals (pusher1 5 1) (packer1 1) reader1 (params_for ["mom"]) Missing (Val "s") [("a", sq)] (DArr (Plain w)) []) as [l|e] eqn:E2.
  2: { exfalso. assert (Q : rseteqb (ds_reduce_vals (pusher1 5 1) (packer1 1) reader1 (params_for ["mom"]) Missing (Val "s") [("a", sq)] (DArr (Plain w)) []) [("a", ["k"; "mom"], [2; 2], [qz 2; fr 3 2; qz 4; fr 25 2])] = true) by (vm_compute; reflexivity). rewrite E2 in Q. discriminate. }
  assert (Q2 : rseteqb (ds_reduce_vals (pusher1 5 1) (packer1 1) reader1 (params_for ["mom"]) Missing (Val "s") [("a", sq)] (DArr (Plain w)) []) [("a", ["k"; "mom"], [2; 2], [qz 2; fr 3 2; qz 4; fr 25 2])] = true) by (vm_compute; reflexivity). rewrite E2 in Q2.
  destruct l as [|[n h] [|]]; cbn [rseteqb seteqb] in Q2; [discriminate Q2| |destruct p; cbn [seteqb] in Q2; rewrite andb_false_r in Q2; discriminate Q2].
  apply andb_true_iff in Q2 as [Q2 _]. apply andb_true_iff in Q2 as [En Q2]. apply String.eqb_eq in En. subst n. exists sq, w, g, h. cbv zeta. split; [|split; [exact E1|split; [exact E2|]]].
  - split; [repeat constructor; intros []|split; [intros v [<-|[]]; split; [reflexivity|split; [apply names2; discriminate|reflexivity]]|intros v u [<-|[]] [<-|[]] n _ _; reflexivity]].
  - intros ->. cbn [lgeqb] in Q1, Q2. apply andb_true_iff in Q1 as [_ Q1]. apply andb_true_iff in Q2 as [_ Q2].
    destruct (gdata (lg_val h)) as [|q l]; [discriminate Q1|]. cbn [eqb1] in Q1, Q2. apply andb_true_iff in Q1 as [Q1 _]. apply andb_true_iff in Q2 as [Q2 _].
    destruct (qeqb_spec q (qz 4)) as [->|]; [|discriminate Q1]. vm_compute in Q2. discriminate Q2.
Qed.
(* tables for two of three variables are refused *)
Theorem unpaired_with_other_refuted : exists (s : xset) table, set_ok s /\ own_tables "rep" "s" 2 table s /\
  List.length (filter (fun v => has_names ["s"; "mom"] (snd v)) s) = 2 /\
  ds_resample_data (pusher1 5 1) (packer1 1) (params_for ["mom"]) (unpaired_tables ["s"; "mom"] table s) "rep" Missing (Val "s") false s = Raise EValue.
Proof.
  exists [("a", lx1); ("e", lx2); ("c", dc)], dtable. split; [|split; [|split; [reflexivity|vm_compute; reflexivity]]].
  - split; [repeat constructor; cbn; intuition discriminate|]. split.
    + intros v [<-|[<-|[<-|[]]]]; [apply lx1_moments|exact lx2_ok|]. split; [reflexivity|split; [apply names2; discriminate|reflexivity]].
    + intros v w [<-|[<-|[<-|[]]]] [<-|[<-|[<-|[]]]] n; cbn [snd]; unfold dc, lx1, lx2; cbn [x_dims]; intros H1 H2; cbn in H1, H2; decompose [or] H1; decompose [or] H2; subst; try contradiction; try discriminate; reflexivity.
  - intros n. unfold dtable. split; [|split; reflexivity]. split; [destruct (String.eqb n "a"); reflexivity|]. split; [apply names2; discriminate|reflexivity].
Qed.
