(* Concrete cases for the theorems about the methods of CentralMomentsData (C133 to
   C141), and a claim that fails. *)
From Coq Require Import String Sorted.
From Verif Require Import Base BaseLemmas ModelPush ModelPushCov ModelConvert ModelKernels ModelIndex ModelAccum ModelAxes ModelState ModelParams ModelNd ModelWrap ModelLabel ModelMethods ModelConstruct ModelMethodsX
  Spec SpecAxes SpecNd SpecIndex SpecMethods SpecLabel SpecLabelTwo SpecLabelVals SpecMethodsX ProofArrays ProofMulti ProofNd ProofLabels PropKernels Checks PropAxes PropReduce PropNd PropNdVals PropLabelled PropWrap
  PropMethods PropMethodsCheck PropLabel PropConstructMake PropConstructCheck PropMethodsX PropMethodsXUse PropMethodsXMore PropMethodsXReduce.
Local Notation length := List.length (only parsing).
Local Open Scope string_scope.
Local Open Scope list_scope.

Definition cxeqb (r : res cmdata) (dims : list sname) (t : tensor) : bool :=
  match r with Ok c => ((if list_eq_dec string_dec (x_dims (cx_obj c)) dims then true else false) && teqb (x_val (cx_obj c)) t)%bool | Raise _ => false end.
Lemma cxeqb_ok r dims t : cxeqb r dims t = true -> exists c, r = Ok c /\ cx_obj c = XA dims t.
Proof.
  destruct r as [c|e]; [|discriminate]. cbn [cxeqb]. intros H. apply andb_true_iff in H. destruct H as [H1 H2]. exists c. split; [reflexivity|]. destruct c as [[d v] p]. cbn [cx_obj x_dims x_val] in *.
  destruct (list_eq_dec string_dec d dims); [|discriminate]. subst. assert (E : Ok v = Ok t) by (apply rteqb_ok; exact H2). congruence.
Qed.

(* order 2 at three positions of x; the dimension of the moments comes first *)
Definition cxa : cmdata := CX (XA ["mom"; "x"] (Tensor [3; 3] (lz [1; 2; 4; 1; 2; 3; 2; 2; 2]%Z))) (params_for ["mom"]).
Local Notation KK := (pusher1 5 2).
Local Notation PP := (packer1 2).
Lemma cxa_holds : xholds cxa ["mom"] /\ map (dim_size (cx_obj cxa)) ["mom"] = pk_shape PP.
Proof.
  split; [|reflexivity]. split; [split; [reflexivity|]; split; [repeat constructor; cbn; intuition discriminate|reflexivity]|]. split; [repeat constructor; intros []|]. split; [now left|].
  split; [intros n [<-|[]]; now left|]. split; [|reflexivity]. apply Forall_cons; [vm_compute; lia|apply Forall_nil].
Qed.
Lemma cxa_nonneg : nonneg_named KK PP ["mom"] (cx_obj cxa).
Proof.
  intros env H. specialize (H "x" ltac:(now left)). unfold moments_named, pk_pack, packer1, p_wt, pusher1. change (dim_size (cx_obj cxa) "x") with 3 in H.
  cbn. unfold x_at. cbn. destruct (env "x") as [|[|[|k]]]; [| | |lia]; vm_compute; discriminate.
Qed.

(* C133 *)
Definition pa : xarr := XA ["x"; "mom"] (Tensor [3; 3] (lz [1; 1; 0; 2; 1; 3; 1; 0; 0]%Z)).
Definition pvs : xarr := XA ["s"; "x"] (Tensor [2; 3] (lz [1; 2; 4; 3; 4; 8]%Z)).
Definition one1 : xop := Plain (Tensor [] (lz [1]%Z)).
Lemma pa_ok : x_ok pa.
Proof. split; [reflexivity|]. split; [repeat constructor; cbn; intuition discriminate|reflexivity]. Qed.
Lemma pvs_ok : x_ok pvs.
Proof. split; [reflexivity|]. split; [repeat constructor; cbn; intuition discriminate|reflexivity]. Qed.
Example push_call_named_ex : lines_up ["mom"] [3] ["x"] (dim_size (cx_obj cxa)) (Labelled pa) /\
  (forall stretch, cxeqb (run_named KK PP reader1 stretch cxa (NData (Labelled pa) None)) ["x"; "mom"]
     (Tensor [3; 3] [qz 2; qz 1; qz 1; qz 4; fr 3 2; fr 11 4; qz 5; fr 12 5; fr 76 25]) = true).
Proof.
  split.
  - split; [apply pa_ok|]. split; [intros n [<-|[]]; now right; left|]. split; [intros n [<-|[<-|[]]]; cbn; auto|]. split; [|reflexivity]. intros n _ [<-|[]]. reflexivity.
  - intros [|]; vm_compute; reflexivity.
Qed.
(* C134, C135 *)
Example push_history_named_ex : forall stretch,
  cxeqb (foldR (run_named KK PP reader1 stretch) [NVals Missing (Val "s") (Labelled pvs) one1 []; NVal (Labelled (XA ["x"] (Tensor [3] (lz [2; 3; 6]%Z)))) one1 []]
    (CX (XA ["x"; "mom"] (Tensor [3; 3] (lz [0; 0; 0; 0; 0; 0; 0; 0; 0]%Z))) (params_for ["mom"]))) ["x"; "mom"]
    (Tensor [3; 3] [qz 3; qz 2; fr 2 3; qz 3; qz 3; fr 2 3; qz 3; qz 6; fr 8 3]) = true /\
  chooses 0 Missing (Val "s") "s" pvs /\ ~ In "s" (["x"] ++ ["mom"]).
Proof.
  intros stretch. split; [destruct stretch; vm_compute; reflexivity|]. split; [left; repeat split; now left|]. cbn. intuition discriminate.
Qed.
(* C136 *)
Example push_call_misnamed_ex : let z := XA ["x"; "mom"] (Tensor [2; 3] (lz [1; 1; 0; 2; 1; 3]%Z)) in let u := XA ["t"; "x"; "mom"] (Tensor [2; 3; 3] (repeat 1%Qc 18)) in
  misnamed ["mom"] ["mom"] (cx_obj cxa) z /\ misnamed ["mom"] ["mom"] (cx_obj cxa) u /\
  (forall stretch, run_named KK PP reader1 stretch cxa (NData (Labelled z) None) = Raise EValue /\ run_named KK PP reader1 stretch cxa (NData (Labelled u) None) = Raise EValue).
Proof.
  cbv zeta. split; [|split].
  - right; right; left. exists "x". split; [cbn; auto|]. split; [cbn; auto|]. vm_compute. discriminate.
  - right; right; right. exists "t". split; [cbn; auto|]. split; [cbn; intuition discriminate|]. split; [cbn; intuition discriminate|]. vm_compute. discriminate.
  - intros [|]; split; vm_compute; reflexivity.
Qed.
(* C137 *)
Definition cxb : cmdata := CX pa (params_for ["mom"]).
Lemma cxb_holds : xholds cxb ["mom"].
Proof.
  split; [apply pa_ok|]. split; [repeat constructor; intros []|]. split; [now left|]. split; [intros n [<-|[]]; right; now left|]. split; [|reflexivity]. apply Forall_cons; [vm_compute; lia|apply Forall_nil].
Qed.
Example add_named_ex : alike PP cxa cxb ["mom"] /\
  (forall stretch, cxeqb (cx_add KK PP stretch cxa cxb) ["x"; "mom"] (Tensor [3; 3] [qz 2; qz 1; qz 1; qz 4; fr 3 2; fr 11 4; qz 5; fr 12 5; fr 76 25]) = true /\
     cxeqb (cx_add KK PP stretch cxb cxa) ["x"; "mom"] (Tensor [3; 3] [qz 2; qz 1; qz 1; qz 4; fr 3 2; fr 11 4; qz 5; fr 12 5; fr 76 25]) = true /\
     cxeqb (rbind (cx_add KK PP stretch cxa cxb) (fun r => cx_sub KK PP stretch r cxb)) ["x"; "mom"] (Tensor [3; 3] (lz [1; 1; 2; 2; 2; 2; 4; 3; 2]%Z)) = true).
Proof.
  split.
  - split; [apply cxa_holds|]. split; [apply cxb_holds|]. split; [reflexivity|]. split; [cbn; tauto|]. intros n [<-|[<-|[]]]; reflexivity.
  - intros [|]; repeat split; vm_compute; reflexivity.
Qed.

(* C138 *)
Lemma cxa_along : along 1 RMissing (Val (DStr "x")) "x" (cx_obj cxa) /\ along 1 (ROne (AInt 1)) Missing "x" (cx_obj cxa).
Proof.
  split; [left; repeat split; right; now left|]. right. split; [reflexivity|]. exists (AInt 1), 1. split; [reflexivity|]. split; [|reflexivity]. unfold names_axis, is_axis. cbn. lia.
Qed.
Example reduce_object_named_ex :
  chooses_many ["mom"] (many_axes RMissing) (Val (DStr "x")) ["x"] (cx_obj cxa) /\
  cxeqb (cx_reduce KK PP argsort_stable cxa RMissing (Val (DStr "x")) None None true None false false) ["mom"] (Tensor [3] [qz 7; fr 17 7; fr 124 49]) = true /\
  cxeqb (cx_reduce KK PP argsort_stable cxa RMissing (Val (DStr "x")) None None true None false true) ["mom"; "x"] (Tensor [3; 1] [qz 7; fr 17 7; fr 124 49]) = true.
Proof.
  split; [|split; vm_compute; reflexivity]. split; [intros n [<-|[]]; right; now left|]. split; [repeat constructor; intros []|]. split; [discriminate|]. split; [intros n [<-|[]]; cbn; intuition discriminate|].
  right; left. split; [reflexivity|]. now exists "x".
Qed.
(* C139 *)
Lemma exlabels_distinct : distinct_labels [0; 2; 2]%Z [0; 2]%Z.
Proof.
  split; [repeat constructor|]. intros v. cbn. split; [intros [<-|[<-|[]]]; lia|]. intros [[<-|[<-|[<-|[]]]] _]; auto.
Qed.
Example reduce_object_labels_ex :
  sorts argsort_stable /\ along 1 (ROne (AInt 1)) Missing "x" (cx_obj cxa) /\ nonneg_named KK PP ["mom"] (cx_obj cxa) /\ distinct_labels [0; 2; 2]%Z [0; 2]%Z /\ zmax_of 2 [0; 2; 2]%Z /\ free_name (cx_obj cxa) "x" (Some "g") /\
  cxeqb (cx_reduce KK PP argsort_stable cxa (ROne (AInt 1)) Missing (Some [0; 2; 2]%Z) None true (Some "g") false false) ["mom"; "g"] (Tensor [3; 2] [qz 1; qz 6; qz 1; fr 8 3; qz 2; fr 20 9]) = true /\
  cxeqb (cx_reduce KK PP argsort_stable cxa (ROne (AInt 1)) Missing (Some [0; 2; 2]%Z) None false (Some "g") false false) ["mom"; "g"]
    (Tensor [3; 3] [qz 1; qz 0; qz 6; qz 1; qz 0; fr 8 3; qz 2; qz 0; fr 20 9]) = true.
Proof.
  split; [apply argsort_stable_ok|]. split; [apply cxa_along|]. split; [apply cxa_nonneg|]. split; [apply exlabels_distinct|]. split; [split; [cbn; auto|repeat apply Forall_cons; try apply Forall_nil; lia]|].
  split; [right; cbn; intuition discriminate|]. split; vm_compute; reflexivity.
Qed.
(* the number of rows depends on coords_policy, and is not that of CentralMomentsArray *)
Definition cxr : cmdata := CX (XA ["x"; "mom"] (Tensor [3; 3] (lz [1; 1; 2; 2; 2; 2; 4; 3; 2]%Z))) (params_for ["mom"]).
Definition cmr : cmarray := CM (x_val (cx_obj cxr)) (AP (Some 1%Z) (Some [(-1)%Z])).
Lemma cxr_holds : xholds cxr ["mom"].
Proof.
  split; [split; [reflexivity|]; split; [repeat constructor; cbn; intuition discriminate|reflexivity]|]. split; [repeat constructor; intros []|]. split; [now left|].
  split; [intros n [<-|[]]; right; now left|]. split; [|reflexivity]. apply Forall_cons; [vm_compute; lia|apply Forall_nil].
Qed.
Theorem reduce_coords_policy_refuted : exists c a by_ r r' ra,
  xholds c ["mom"] /\ c_obj a = x_val (cx_obj c) /\
  cx_reduce KK PP argsort_stable c RMissing (Val (DStr "x")) (Some by_) None true None false false = Ok r /\
  cx_reduce KK PP argsort_stable c RMissing (Val (DStr "x")) (Some by_) None false None false false = Ok r' /\
  c_reduce KK PP a (ROne (AInt 0)) (Some by_) None false false = Ok ra /\
  dim_size (cx_obj r) "x" = 2 /\ dim_size (cx_obj r') "x" = 3 /\ shape_of (c_obj ra) 0 = 3.
Proof.
  destruct (cxeqb_ok (cx_reduce KK PP argsort_stable cxr RMissing (Val (DStr "x")) (Some [0; 2; 2]%Z) None true None false false) ["x"; "mom"] (Tensor [2; 3] [qz 1; qz 1; qz 2; qz 6; fr 8 3; fr 20 9])) as (r & E1 & F1); [vm_compute; reflexivity|].
  destruct (cxeqb_ok (cx_reduce KK PP argsort_stable cxr RMissing (Val (DStr "x")) (Some [0; 2; 2]%Z) None false None false false) ["x"; "mom"] (Tensor [3; 3] [qz 1; qz 1; qz 2; qz 0; qz 0; qz 0; qz 6; fr 8 3; fr 20 9])) as (r' & E2 & F2); [vm_compute; reflexivity|].
  pose proof (ceqpb_ok (c_reduce KK PP cmr (ROne (AInt 0)) (Some [0; 2; 2]%Z) None false false) (CM (Tensor [3; 3] [qz 1; qz 1; qz 2; qz 0; qz 0; qz 0; qz 6; fr 8 3; fr 20 9]) (AP (Some 1%Z) (Some [(-1)%Z])))) as E3.
  exists cxr, cmr, [0; 2; 2]%Z, r, r', (CM (Tensor [3; 3] [qz 1; qz 1; qz 2; qz 0; qz 0; qz 0; qz 6; fr 8 3; fr 20 9]) (AP (Some 1%Z) (Some [(-1)%Z]))). split; [apply cxr_holds|].
  split; [reflexivity|]. split; [exact E1|]. split; [exact E2|]. split; [apply E3; vm_compute; reflexivity|]. rewrite F1, F2. repeat split; reflexivity.
Qed.
(* C140 *)
Example reduce_object_blocks_ex : 0 < 2 <= dim_size (cx_obj cxa) "x" /\
  cxeqb (cx_reduce KK PP argsort_stable cxa RMissing (Val (DStr "x")) None (Some 2%Z) true None true false) ["x"; "mom"] (Tensor [1; 3] [qz 3; fr 5 3; fr 20 9]) = true /\
  cxeqb (cx_reduce KK PP argsort_stable cxa RMissing (Val (DStr "x")) None (Some 2%Z) false None true false) ["x"; "mom"] (Tensor [1; 3] [qz 3; fr 5 3; fr 20 9]) = true.
Proof. split; [vm_compute; lia|]. split; vm_compute; reflexivity. Qed.
(* C141 *)
Example resample_object_ex : let freq := Plain (Tensor [2; 3] (lz [1; 2; 0; 0; 0; 3]%Z)) in
  counts_named freq "rep" "x" 2 (dim_size (cx_obj cxa) "x") /\ ~ In "rep" (x_dims (cx_obj cxa)) /\ Forall all_nonneg (counts_table freq "rep" "x" 2 (dim_size (cx_obj cxa) "x")) /\
  cxeqb (cx_resample_and_reduce KK PP cxa freq "rep" Missing (Val "x") false) ["mom"; "rep"] (Tensor [3; 2] [qz 5; qz 12; fr 9 5; qz 3; fr 54 25; qz 2]) = true.
Proof.
  cbv zeta. split; [repeat split|]. split; [cbn; intuition discriminate|]. split; [|vm_compute; reflexivity].
  assert (E : counts_table (Plain (Tensor [2; 3] (lz [1; 2; 0; 0; 0; 3]%Z))) "rep" "x" 2 (dim_size (cx_obj cxa) "x") = [lz [1; 2; 0]%Z; lz [0; 0; 3]%Z]) by reflexivity.
  rewrite E. unfold all_nonneg. repeat constructor; vm_compute; discriminate.
Qed.
Example jackknife_object_ex : free_name (cx_obj cxa) "x" (Some "rep") /\
  cxeqb (cx_jackknife_and_reduce KK PP cxa None (Some "rep") Missing (Val "x") false) ["mom"; "rep"] (Tensor [3; 3] [qz 6; qz 5; qz 3; fr 8 3; fr 13 5; fr 5 3; fr 20 9; fr 66 25; fr 20 9]) = true.
Proof. split; [right; cbn; intuition discriminate|vm_compute; reflexivity]. Qed.
Example cumulative_object_ex :
  cxeqb (cx_with cxa (cx_cumulative KK PP cxa Missing (Val "x") false)) ["mom"; "x"] (Tensor [3; 3] [qz 1; qz 3; qz 7; qz 1; fr 5 3; fr 17 7; qz 2; fr 20 9; fr 124 49]) = true.
Proof. vm_compute. reflexivity. Qed.
