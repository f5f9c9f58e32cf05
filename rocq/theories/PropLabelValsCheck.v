(* Concrete cases of the theorems about labelled arrays of values. *)
From Coq Require Import String.
From Verif Require Import Base BaseLemmas Checks ModelPush ModelPushCov ModelKernels ModelIndex ModelAxes ModelParams ModelWrap ModelNd ModelLabel Spec SpecAxes SpecNd SpecLabel SpecLabelTwo SpecLabelVals
  Laws ProofSpec ProofAxes ProofArrays ProofMulti PropAxes PropLabelled PropNd PropNdUse PropNdVals ProofLabel PropLabel PropLabelTwo PropLabelJack PropLabelUse PropLabelCheck PropLabelVals PropLabelValsMore PropLabelValsUse.
Local Open Scope string_scope.
Local Open Scope nat_scope.

(* three samples at two positions, weights that differ along a further name *)
Definition lv : xarr := XA ["s"; "k"] (Tensor [3; 2] (lz [1; 10; 2; 20; 4; 40]%Z)).
Definition lw : xarr := XA ["t"; "s"] (Tensor [2; 3] (lz [1; 2; 1; 2; 1; 1]%Z)).
(* the same entries in another order *)
Definition lv' : xarr := XA ["k"; "s"] (Tensor [2; 3] (lz [1; 2; 4; 10; 20; 40]%Z)).
Definition lw' : xarr := XA ["s"; "t"] (Tensor [3; 2] (lz [1; 2; 2; 1; 1; 1]%Z)).
Definition lsz (n : sname) : nat := if String.eqb n "s" then 3 else 2.

Lemma lv_ok : x_ok lv /\ x_ok lw /\ x_ok lv' /\ x_ok lw'.
Proof. repeat split; try reflexivity; repeat constructor; cbn; intuition discriminate. Qed.
Lemma lv_given o : In o [Labelled lv; Labelled lw] -> value_given "s" (other_names "s" [Labelled lv; Labelled lw]) lsz (from_last "s" lv) o.
Proof.
  intros [<-|[<-|[]]]; cbn [value_given]; (split; [apply lv_ok|]); (split; [cbn; auto|]); intros n [<-|[<-|[]]]; reflexivity.
Qed.
Example values_given_ex : chooses 0 Missing (Val "s") "s" lv /\ chooses 0 (Val (AInt (-1))) Missing "s" lv' /\
  values_given (packer1 1) "s" ["mom"] lsz lv (Labelled lw) [] /\
  other_names "s" [Labelled lv; Labelled lw] = ["k"; "t"] /\ values_dims false "s" "rep" ["mom"] lv [Labelled lv; Labelled lw] = ["t"; "rep"; "k"; "mom"] /\
  x_same lv lv' /\ same_operand (Labelled lw) (Labelled lw').
Proof.
  split; [left; cbn; auto|]. split; [right; split; [reflexivity|]; exists (AInt (-1)), 1; cbn; unfold is_axis; repeat split; auto; lia|].
  split; [|split; [reflexivity|split; [reflexivity|]]].
  { split; [reflexivity|]. split; [exact lv_given|]. split; [repeat constructor; intros []|]. split; [intros n [<-|[]]; cbn; intuition discriminate|reflexivity]. }
  assert (S : forall n, n < 3 -> n = 0 \/ n = 1 \/ n = 2) by lia. assert (T : forall n, n < 2 -> n = 0 \/ n = 1) by lia.
  split; [|split; [apply lv_ok|]]; (split; [intros n; cbn; tauto|]); (split; [intros n [<-|[<-|[]]]; reflexivity|]); intros env I.
  - pose proof (I "s" (or_introl eq_refl)) as I1. pose proof (I "k" (or_intror (or_introl eq_refl))) as I2. apply S in I1. apply T in I2. unfold x_at, tget. cbn [lv lv' x_dims x_val map tshape tdata].
    destruct I1 as [-> |[-> | ->]], I2 as [-> | ->]; reflexivity.
  - pose proof (I "t" (or_introl eq_refl)) as I2. pose proof (I "s" (or_intror (or_introl eq_refl))) as I1. apply S in I1. apply T in I2. unfold x_at, tget. cbn [lw lw' x_dims x_val map tshape tdata].
    destruct I1 as [-> |[-> | ->]], I2 as [-> | ->]; reflexivity.
Qed.
(* plain weights: one axis, or an axis for k as well; a number *)
Example plain_given_ex : forall w, In w [Plain (Tensor [3] (lz [1; 2; 1]%Z)); Plain (Tensor [3; 1] (lz [1; 2; 1]%Z)); Plain (Tensor [3; 2] (lz [1; 2; 1; 1; 1; 1]%Z)); Plain (Tensor [] (lz [1]%Z))] ->
  values_given (packer1 1) "s" ["mom"] lsz lv w [].
Proof.
  intros w Hw. split; [reflexivity|]. split; [|split; [repeat constructor; intros []|split; [|destruct Hw as [<-|[<-|[<-|[<-|[]]]]]; reflexivity]]].
  - intros o [<-|[<-|[]]]; [split; [apply lv_ok|]; split; [cbn; auto|]; intros n [<-|[<-|[]]]; reflexivity|].
    destruct Hw as [<-|[<-|[<-|[<-|[]]]]]; [right|right|right|left; reflexivity]; (split; [cbn; auto; lia|]); (split; [|reflexivity]);
      (split; [reflexivity|]); (split; [repeat constructor; intros []|]); (split; [intros c [<-|[]]; cbn; lia|]); (split; [cbn; lia|]).
    + intros p [].
    + intros p [<-|[]]. right. reflexivity.
    + intros p [<-|[]]. left. reflexivity.
  - intros n [<-|[]]. destruct Hw as [<-|[<-|[<-|[<-|[]]]]]; cbn; intuition discriminate.
Qed.

Example reduce_vals_named_ex : let K := pusher1 5 1 in let P := packer1 1 in let R := reader1 in let p := params_for ["mom"] in
  lgeqb (x_reduce_vals K P R p Missing (Val "s") lv (Labelled lw) []) ["k"; "t"; "mom"] [2; 2; 2] [qz 4; fr 9 4; qz 4; qz 2; qz 4; fr 45 2; qz 4; qz 20] = true /\
  lgeqb (x_reduce_vals K P R p (Val (AInt (-1))) Missing lv' (Labelled lw') []) ["k"; "t"; "mom"] [2; 2; 2] [qz 4; fr 9 4; qz 4; qz 2; qz 4; fr 45 2; qz 4; qz 20] = true /\
  lgeqb (x_reduce_vals K P R p Missing (Val "s") lv (Plain (Tensor [3; 1] (lz [1; 2; 1]%Z))) []) ["k"; "mom"] [2; 2] [qz 4; fr 9 4; qz 4; fr 45 2] = true /\
  lgeqb (x_reduce_vals (pusher2 5 1 1) (packer2 1 1) reader2 (params_for ["m0"; "m1"]) Missing (Val "s") lv (Labelled lw) [Plain (Tensor [3; 1] (lz [0; 1; 3]%Z))]) ["k"; "t"; "m0"; "m1"] [2; 2; 2; 2]
    [qz 4; fr 5 4; fr 9 4; fr 19 16; qz 4; qz 1; qz 2; fr 3 2; qz 4; fr 5 4; fr 45 2; fr 95 8; qz 4; qz 1; qz 20; qz 15] = true /\
  x_reduce_vals K P R p Missing (Val "s") lv (Plain (Tensor [] (lz [0]%Z))) [] <> Raise EZeroDiv.
Proof. repeat split; try (vm_compute; reflexivity). vm_compute. discriminate. Qed.
Example rolling_vals_named_ex : let K := pusher1 5 1 in let P := packer1 1 in let R := reader1 in let p := params_for ["mom"] in
  logeqb (x_rolling_vals K P R p 2 None false true Missing (Val "s") false lv (Labelled lw) []) ["t"; "s"; "k"; "mom"] [2; 3; 2; 2]
    ([Some (qz 0); None; Some (qz 0); None] ++ map Some [qz 3; fr 5 3; qz 3; fr 50 3; qz 3; fr 8 3; qz 3; fr 80 3] ++ [Some (qz 0); None; Some (qz 0); None] ++ map Some [qz 3; fr 4 3; qz 3; fr 40 3; qz 2; qz 3; qz 2; qz 30]) = true /\
  x_rolling_vals K P R p 0 None true true Missing (Val "s") false lv (Labelled lw) [] = Raise EValue.
Proof. repeat split; vm_compute; reflexivity. Qed.
Example resample_vals_named_ex : let K := pusher1 5 1 in let P := packer1 1 in let R := reader1 in let p := params_for ["mom"] in let freq := Plain (Tensor [2; 3] (lz [1; 1; 1; 0; 2; 1]%Z)) in
  counts_named freq "rep" "s" 2 (lsz "s") /\ ~ In "rep" (all_names [Labelled lv; Labelled lw]) /\ In "k" (all_names [Labelled lv; Labelled lw]) /\
  lgeqb (x_resample_vals K P R p freq "rep" Missing (Val "s") false lv (Labelled lw) []) ["t"; "rep"; "k"; "mom"] [2; 2; 2; 2]
    [qz 4; fr 9 4; qz 4; fr 45 2; qz 5; fr 12 5; qz 5; qz 24; qz 4; qz 2; qz 4; qz 20; qz 3; fr 8 3; qz 3; fr 80 3] = true /\
  x_resample_vals K P R p freq "k" Missing (Val "s") false lv (Labelled lw) [] = Raise EValue /\
  x_resample_vals K P R p (Plain (Tensor [2; 2] (lz [1; 1; 0; 2]%Z))) "rep" Missing (Val "s") false lv (Labelled lw) [] = Raise EValue.
Proof. split; [repeat split; reflexivity|]. split; [cbn; intuition discriminate|]. split; [cbn; auto|]. repeat split; vm_compute; reflexivity. Qed.
Example jackknife_vals_named_ex : let K := pusher1 5 1 in let P := packer1 1 in let R := reader1 in let p := params_for ["mom"] in
  name_free "s" (Some "rep") (all_names [Labelled lv; Labelled lw] ++ ["mom"]) /\ ~ name_free "s" (Some "k") (all_names [Labelled lv; Labelled lw] ++ ["mom"]) /\
  lgeqb (x_jackknife_vals K P R p None (Some "rep") Missing (Val "s") false lv (Labelled lw) []) ["t"; "rep"; "k"; "mom"] [2; 3; 2; 2]
    [qz 3; fr 8 3; qz 3; fr 80 3; qz 2; fr 5 2; qz 2; qz 25; qz 3; fr 5 3; qz 3; fr 50 3; qz 2; qz 3; qz 2; qz 30; qz 3; qz 2; qz 3; qz 20; qz 3; fr 4 3; qz 3; fr 40 3] = true /\
  x_jackknife_vals K P R p None (Some "k") Missing (Val "s") false lv (Labelled lw) [] = Raise EValue.
Proof. split; [right; cbn; intuition discriminate|]. split; [intros [Q|Q]; [discriminate|apply Q; cbn; auto]|]. repeat split; vm_compute; reflexivity. Qed.
Example jackknife_vals_given_ex : let K := pusher1 5 1 in let P := packer1 1 in let R := reader1 in let p := params_for ["mom"] in let red := Plain (Tensor [2] (lz [5; 3]%Z)) in
  moments_given P ["mom"] (other_names "s" [Labelled lv; Labelled lw]) lsz red /\
  lgeqb (x_jackknife_vals K P R p (Some red) None Missing (Val "s") false lv (Labelled lw) []) ["t"; "s"; "k"; "mom"] [2; 3; 2; 2]
    [qz 4; fr 7 2; qz 4; fr 5 4; qz 3; fr 11 3; qz 3; fr (-25) 3; qz 4; fr 11 4; qz 4; fr (-25) 4; qz 3; fr 13 3; qz 3; fr (-5) 3; qz 4; fr 13 4; qz 4; fr (-5) 4; qz 4; fr 11 4; qz 4; fr (-25) 4] = true.
Proof.
  split; [|vm_compute; reflexivity]. split; [cbn; lia|]. split; [|reflexivity]. split; [reflexivity|]. split; [repeat constructor; intros []|]. split; [intros c [<-|[]]; cbn; lia|]. split; [cbn; lia|]. intros p [].
Qed.
Definition lva : xarr := XA ["s"; "k"] (Tensor [3; 2] [fr 1 2; fr 1 4; fr 1 2; fr 1 4; fr 1 2; fr 1 4]).
Example rolling_exp_vals_named_ex : let K := pusher1 5 1 in let P := packer1 1 in let R := reader1 in let p := params_for ["mom"] in
  operands_given P "s" ["mom"] lsz lv [Labelled lw; Labelled lva] /\ incl (all_names [Labelled lv; Labelled lw; Labelled lva]) (all_names [Labelled lv; Labelled lw]) /\
  logeqb (x_rolling_exp_vals K P R p (Labelled lva) true (Some 2%Z) true Missing (Val "s") false lv (Labelled lw) []) ["t"; "s"; "k"; "mom"] [2; 3; 2; 2]
    ([Some (qz 0); None; Some (qz 0); None] ++ map Some [fr 5 2; fr 9 5; fr 11 4; fr 190 11; fr 9 4; fr 25 9; fr 49 16; fr 1210 49] ++
     [Some (qz 0); None; Some (qz 0); None] ++ map Some [qz 2; fr 3 2; fr 5 2; qz 14; qz 2; fr 11 4; fr 23 8; fr 530 23]) = true /\
  (* decay factors with a name of their own *)
  x_rolling_exp_vals K P R p (Labelled (XA ["s"; "u"] (x_val lva))) true (Some 2%Z) true Missing (Val "s") false lv (Labelled lw) [] = Raise EValue.
Proof.
  split; [|split; [intros n; cbn; tauto|split; vm_compute; reflexivity]].
  split; [|split; [repeat constructor; intros []|split; [intros n [<-|[]]; cbn; intuition discriminate|reflexivity]]].
  intros o [<-|[<-|[<-|[]]]]; cbn [value_given]; (split; [first [apply lv_ok|split; [reflexivity|split; [repeat constructor; cbn; intuition discriminate|reflexivity]]]|]); (split; [cbn; auto|]); intros n [<-|[<-|[]]]; reflexivity.
Qed.
(* arguments that do not fit *)
Example values_misfit_named_ex : let K := pusher1 5 1 in let P := packer1 1 in let R := reader1 in let p := params_for ["mom"] in
  let bad := [Labelled (XA ["t"] (Tensor [3] (lz [1; 2; 1]%Z))); Labelled (XA ["k"; "s"] (Tensor [3; 3] (lz [1; 1; 1; 1; 1; 1; 1; 1; 1]%Z))); Labelled (XA ["s"; "mom"] (Tensor [3; 1] (lz [1; 2; 1]%Z)));
    Plain (Tensor [2] (lz [1; 2]%Z)); Plain (Tensor [2; 3] (lz [1; 1; 1; 1; 1; 1]%Z))] in
  Forall (fun w => operand_ok w /\ operands_misfit "s" ["mom"] lv [w] /\ x_reduce_vals K P R p Missing (Val "s") lv w [] = Raise EValue) bad /\
  x_reduce_vals K P R p Missing (Val "s") lv (Labelled lw) [Labelled lv] = Raise EValue /\ x_reduce_vals K P R p Missing (Val "z") lv (Labelled lw) [] = Raise EValue.
Proof.
  cbv zeta. split; [|split; vm_compute; reflexivity].
  repeat (constructor; [split; [cbn [operand_ok]; first [reflexivity|split; [reflexivity|split; [repeat constructor; cbn; intuition discriminate|reflexivity]]]|split; [|vm_compute; reflexivity]]|]); [| | | | |constructor].
  - left. eexists. split; [right; left; reflexivity|]. cbn. intuition discriminate.
  - right. left. exists lv. eexists. exists "k". split; [now left|]. split; [right; left; reflexivity|]. split; [cbn; auto|]. split; [cbn; auto|]. discriminate.
  - right. right. left. exists "mom". split; [now left|]. split; [discriminate|]. cbn. auto.
  - right. right. right. eexists. split; [left; reflexivity|]. unfold fits_samples. cbn. lia.
  - right. right. right. eexists. split; [left; reflexivity|]. unfold fits_samples. cbn. lia.
Qed.
