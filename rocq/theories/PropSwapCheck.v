(* Concrete cases for swap_dims and rename, and what does not hold (C196-C199). *)
From Coq Require Import String.
From Verif Require Import Base BaseLemmas Checks ModelPush ModelKernels ModelIndex ModelAxes ModelParams ModelWrap ModelSwap ModelMethodsX
  Spec SpecAxes SpecNd SpecLabel PropLabelled ProofArrays PropAxes PropMethodsXCheck PropMethodsSCheck PropSwap.
Local Open Scope string_scope.
Local Open Scope nat_scope.

(* moments in front of the values; sizes 3 and 2 and 2 *)
Definition wx : cmdata := CX (XA ["mom"; "x"; "y"] (Tensor [3; 2; 2] (lz [1; 2; 3; 4; 5; 6; 7; 8; 9; 10; 11; 12]%Z))) (params_for ["mom"]).
Definition w2 : cmdata := CX (XA ["x"; "mom"] (Tensor [2; 2] (lz [1; 2; 3; 4]%Z))) (params_for ["mom"]).
Lemma wx_holds : xholds wx ["mom"].
Proof. split; [one_arr|]. split; [nodup|]. split; [now left|]. split; [intros n [<-|[]]; now left|]. split; [apply Forall_cons; [vm_compute; lia|apply Forall_nil]|reflexivity]. Qed.
Lemma w2_holds : xholds w2 ["mom"].
Proof. split; [one_arr|]. split; [nodup|]. split; [now left|]. split; [intros n [<-|[]]; right; now left|]. split; [apply Forall_cons; [vm_compute; lia|apply Forall_nil]|reflexivity]. Qed.

(* C196: x and y trade names, the moments go last *)
Example swap_values_ex : let l := [("x", "y"); ("y", "x")] in let f := new_name l in
  xholds wx ["mom"] /\ NoDup (map fst l) /\ gives l f /\ (forall m, In m ["mom"] -> ~ In m (map fst l)) /\ swappable l f (cx_obj wx) /\
  cxeqb (cx_swap_dims wx l true) ["y"; "x"; "mom"] (Tensor [2; 2; 3] (lz [1; 5; 9; 2; 6; 10; 3; 7; 11; 4; 8; 12]%Z)) = true.
Proof.
  intros l f. assert (N : NoDup (map fst l)) by nodup. split; [exact wx_holds|]. split; [exact N|]. split; [now apply new_name_gives|]. split; [intros m [<-|[]]; cbn; intuition discriminate|].
  split; [split; [intros n Hn; cbn in Hn |- *; tauto|nodup]|]. vm_compute. reflexivity.
Qed.
Example swap_moment_error_ex : let l := [("mom", "z")] in NoDup (map fst l) /\ ~ In "mom" (map (new_name l) (x_dims (cx_obj wx))) /\ cx_swap_dims wx l true = Raise EValue /\
  cx_swap_dims wx [("t", "z")] true = Raise EValue /\ cx_swap_dims wx [("mom", "x"); ("x", "mom")] true = Raise EValue.
Proof. intros l. split; [nodup|]. split; [cbn; intuition discriminate|]. repeat split. Qed.
(* C198 *)
Example rename_named_ex : let l := [("x", "z")] in let f := new_name l in
  NoDup (map fst l) /\ gives l f /\ swappable l f (cx_obj wx) /\ cxeqb (cx_rename_dims wx l) ["mom"; "z"; "y"] (x_val (cx_obj wx)) = true /\ cx_rename_dims wx [("t", "z")] = Raise EValue.
Proof.
  intros l f. assert (N : NoDup (map fst l)) by nodup. split; [exact N|]. split; [now apply new_name_gives|]. split; [split; [intros n Hn; cbn in Hn |- *; tauto|nodup]|]. split; vm_compute; reflexivity.
Qed.

(* C197: false that swap_dims of a moment dimension is an error: a dimension of the same
   size that takes over its name holds the moments then, with other values *)
Theorem swap_moment_refuted : exists c md l m y env, xholds c md /\ NoDup (map fst l) /\ In m md /\ In m (map fst l) /\
  cx_swap_dims c l true = Ok (CX y (cx_params c)) /\ x_inside y env /\ x_inside (cx_obj c) env /\ x_at y env <> x_at (cx_obj c) env.
Proof.
  exists w2, ["mom"], [("x", "mom"); ("mom", "x")], "mom". eexists. exists (fun n => if String.eqb n "mom" then 1 else 0).
  split; [exact w2_holds|]. split; [nodup|]. split; [now left|]. split; [right; now left|]. split; [reflexivity|].
  split; [intros n Hn; cbn in Hn; each_in; cbn; lia|]. split; [intros n Hn; cbn in Hn; each_in; cbn; lia|]. intros E. vm_compute in E. discriminate E.
Qed.
(* C199: false that rename gives an object that still has its moments, or raises *)
Theorem rename_moment_refuted : exists c md l c' e, xholds c md /\ NoDup (map fst l) /\ cx_rename_dims c l = Ok c' /\ cx_mom_shape c' = Raise e.
Proof.
  exists wx, ["mom"], [("mom", "z")]. eexists. eexists. split; [exact wx_holds|]. split; [nodup|]. split; reflexivity.
Qed.
