(* Concrete cases for the theorems about changes of the dimensions (C159 to C162), and
   claims that fail. *)
From Coq Require Import String Permutation.
From Verif Require Import Base BaseLemmas Checks ModelPush ModelPushCov ModelKernels ModelIndex ModelAxes ModelSelect ModelParams ModelWrap ModelNd ModelLabel ModelDataset ModelShape
  Spec SpecAxes SpecNd SpecLabel SpecLabelTwo SpecDataset SpecShape ProofArrays PropAxes PropLabelled PropLabelCheck PropMomentsXCheck PropShape PropShapeUse PropShapeSelect PropShapeCommute PropShapeBack PropShapeSet.
Local Open Scope string_scope.
Local Open Scope nat_scope.

Definition hc : cmdata := CX lx1 (params_for ["mom"]).
Definition obj_of (r : res cmdata) : res xarr := rmap cx_obj r.
Lemma hc_holds : xholds hc ["mom"].
Proof. split; [apply lx1_moments|]. split; [repeat constructor; intros []|]. split; [now left|]. split; [intros n [<-|[]]; now left|]. split; [repeat constructor|reflexivity]. Qed.
Lemma hc_stackable ds : ds <> [] -> NoDup ds -> incl ds ["s"; "k"] -> stackable "z" ds (cx_obj hc).
Proof.
  intros Ne Nd I. split; [exact Ne|]. split; [exact Nd|]. split; [intros n Hn; apply I in Hn as [<-|[<-|[]]]; cbn; auto|]. split; [cbn; intuition discriminate|]. intros n [<-|[<-|[<-|[]]]] _; vm_compute; lia.
Qed.

Example stack_ex : stackable "z" ["s"; "k"] (cx_obj hc) /\ stackable "z" ["k"; "s"] (cx_obj hc) /\
  xeqb (obj_of (cx_stack hc "z" ["s"; "k"])) ["z"; "mom"] (Tensor [6; 2] (lz [1; 10; 2; 20; 3; 30; 4; 40; 5; 50; 6; 60]%Z)) = true /\
  xeqb (obj_of (cx_stack hc "z" ["k"; "s"])) ["z"; "mom"] (Tensor [6; 2] (lz [1; 10; 3; 30; 5; 50; 2; 20; 4; 40; 6; 60]%Z)) = true /\
  xeqb (obj_of (cx_stack hc "z" ["k"])) ["s"; "z"; "mom"] (Tensor [3; 2; 2] (lz [1; 10; 2; 20; 3; 30; 4; 40; 5; 50; 6; 60]%Z)) = true /\
  cx_stack hc "k" ["s"] = Raise EValue /\ cx_stack hc "z" ["q"] = Raise EKey /\ cx_stack hc "z" ["s"; "mom"] = Raise EValue /\ cx_stack hc "z" ["s"; "s"] = Raise EValue.
Proof.
  split; [apply hc_stackable; [discriminate|repeat constructor; cbn; intuition discriminate|intros n; cbn; tauto]|]. split; [apply hc_stackable; [discriminate|repeat constructor; cbn; intuition discriminate|intros n; cbn; tauto]|].
  repeat split; vm_compute; reflexivity.
Qed.
Example stack_reduce_ex : let K := pusher1 5 1 in let P := packer1 1 in let p := params_for ["mom"] in
  match cx_stack hc "z" ["s"; "k"] with Ok c => lgeqb (x_reduce_data K P p Missing (Val (DStr "z")) false false (cx_obj c)) ["mom"] [2] [qz 21; fr 910 21] | _ => false end = true /\
  lgeqb (x_reduce_data K P p Missing (Val (DSeq ["s"; "k"])) false true lx1) ["mom"] [2] [qz 21; fr 910 21] = true.
Proof. split; vm_compute; reflexivity. Qed.
Definition hback (l : list Z) (ks : list nat) : res xarr :=
  rbind (cx_stack hc "z" ["s"; "k"]) (fun c => rbind (stack_index ["s"; "k"] lx1) (fun ix => rbind (cx_isel c [("z", IList l)]) (fun c' =>
  obj_of (cx_unstack c' "z" (XI (xi_names ix) (xi_sizes ix) (map (fun k => nth k (xi_codes ix) []) ks)))))).
Example unstack_ex : stack_index ["s"; "k"] lx1 = Ok (XI ["s"; "k"] [3; 2] [[0; 0]; [0; 1]; [1; 0]; [1; 1]; [2; 0]; [2; 1]]) /\
  Forall2 (is_axis 6) [5; 0; -5; 4; 2; 3]%Z [5; 0; 1; 4; 2; 3] /\ Permutation [5; 0; 1; 4; 2; 3] (seq 0 6) /\
  xeqb (hback [5; 0; -5; 4; 2; 3]%Z [5; 0; 1; 4; 2; 3]) ["s"; "k"; "mom"] (Tensor [3; 2; 2] (lz [1; 10; 2; 20; 3; 30; 4; 40; 5; 50; 6; 60]%Z)) = true /\
  (* the codes of another order put the entries elsewhere *)
  xeqb (hback [5; 0; -5; 4; 2; 3]%Z [0; 1; 2; 3; 4; 5]) ["s"; "k"; "mom"] (Tensor [3; 2; 2] (lz [6; 60; 1; 10; 2; 20; 5; 50; 3; 30; 4; 40]%Z)) = true.
Proof.
  split; [reflexivity|]. split; [repeat constructor; unfold is_axis; lia|]. split; [|split; vm_compute; reflexivity].
  apply NoDup_Permutation; [repeat constructor; cbn; intuition discriminate|apply seq_NoDup|]. intros n. cbn. intuition.
Qed.
Example isel_ex :
  xeqb (obj_of (cx_isel hc [("k", IAt (-1))])) ["mom"; "s"] (Tensor [2; 3] (lz [2; 4; 6; 20; 40; 60]%Z)) = true /\
  xeqb (obj_of (cx_isel hc [("s", IList [2; 0]%Z); ("k", ISlice None None (Some (-1)%Z))])) ["mom"; "s"; "k"] (Tensor [2; 2; 2] (lz [6; 5; 2; 1; 60; 50; 20; 10]%Z)) = true /\
  cx_isel hc [("k", IAt 2)] = Raise EIndex /\ cx_isel hc [("q", IAt 0)] = Raise EValue /\ cx_isel hc [("mom", IAt 0)] = Raise EValue /\
  selects [("s", IList [2; 0]%Z); ("k", IAt (-1))] (dim_size lx1) (x_dims lx1) (fun n => if String.eqb n "s" then inr [2; 0] else if String.eqb n "k" then inl 1 else inr [0; 1]) /\
  untouched [("k", IAt (-1))] ["s"; "mom"].
Proof.
  split; [vm_compute; reflexivity|]. split; [vm_compute; reflexivity|]. split; [vm_compute; reflexivity|]. split; [vm_compute; reflexivity|]. split; [vm_compute; reflexivity|]. split.
  - intros n [<-|[<-|[<-|[]]]]; cbn; [reflexivity|apply takes_list; repeat constructor; unfold is_axis, dim_size; cbn; lia|apply takes_at; unfold is_axis, dim_size; cbn; lia].
  - intros n [<-|[]]. cbn. intuition discriminate.
Qed.
Example isel_cumulative_ex : let K := pusher1 5 1 in let P := packer1 1 in let p := params_for ["mom"] in
  match x_isel [("k", IAt (-1))] lx1 with Ok y => lgeqb (x_cumulative K P p false Missing (Val "s") false y) ["mom"; "s"] [2; 3] [qz 2; qz 6; qz 12; qz 20; fr 100 3; fr 140 3] | _ => false end = true.
Proof. vm_compute. reflexivity. Qed.
(* selecting along the moment dimension: an indexer that keeps its length is accepted,
   whatever it does to the order of the moments *)
Theorem isel_moments_refuted : exists c md ix c' env, xholds c md /\ cx_isel c ix = Ok c' /\ map fst ix = md /\ x_inside (cx_obj c) env /\ x_inside (cx_obj c') env /\
  x_at (cx_obj c) (name_bind md [0] env) = qz 1 /\ x_at (cx_obj c') (name_bind md [0] env) = qz 10.
Proof.
  exists hc, ["mom"], [("mom", ISlice None None (Some (-1)%Z))]. assert (E : xeqb (obj_of (cx_isel hc [("mom", ISlice None None (Some (-1)%Z))])) ["mom"; "s"; "k"] (Tensor [2; 3; 2] (lz [10; 20; 30; 40; 50; 60; 1; 2; 3; 4; 5; 6]%Z)) = true) by (vm_compute; reflexivity).
  apply xeqb_ok in E. destruct (cx_isel hc _) as [c'|] eqn:Ec; [|discriminate E]. cbn [obj_of rmap] in E. injection E as E. exists c', (fun _ => 0). split; [apply hc_holds|]. split; [reflexivity|]. split; [reflexivity|].
  split; [intros n [<-|[<-|[<-|[]]]]; vm_compute; lia|]. split; [rewrite E; intros n [<-|[<-|[<-|[]]]]; vm_compute; lia|]. split; [reflexivity|]. rewrite E. reflexivity.
Qed.
Definition hlabel (i : nat) : sname := nth i ["a"; "b"] "c".
Definition hseteqb (r : res xset) (l : list (sname * (list sname * tensor))) : bool :=
  match r with
  | Ok s => (if list_eq_dec string_dec (map fst s) (map fst l) then true else false) && forallb (fun p => xeqb (Ok (snd (fst p))) (fst (snd (snd p))) (snd (snd (snd p)))) (combine s l)
  | Raise _ => false
  end.
Example to_dataset_ex : NoDup (map hlabel (seq 0 (dim_size lx1 "k"))) /\
  hseteqb (cx_to_dataset hc "k" hlabel) [("a", (["s"; "mom"], Tensor [3; 2] (lz [1; 10; 3; 30; 5; 50]%Z))); ("b", (["s"; "mom"], Tensor [3; 2] (lz [2; 20; 4; 40; 6; 60]%Z)))] = true /\
  cx_to_dataset hc "mom" hlabel = Raise EValue /\ cx_to_dataset hc "q" hlabel = Raise EType /\
  hseteqb (cx_to_dataset_one hc "x") [("x", (["s"; "k"; "mom"], Tensor [3; 2; 2] (lz [1; 10; 2; 20; 3; 30; 4; 40; 5; 50; 6; 60]%Z)))] = true /\
  xeqb (rbind (cx_to_dataset hc "k" hlabel) (fun s => obj_of (cs_to_dataarray (params_for ["mom"]) "k" s))) ["k"; "s"; "mom"] (Tensor [2; 3; 2] (lz [1; 10; 3; 30; 5; 50; 2; 20; 4; 40; 6; 60]%Z)) = true.
Proof. split; [cbn; repeat constructor; cbn; intuition discriminate|]. repeat split; vm_compute; reflexivity. Qed.
(* a variable without the moment dimensions, which the functions of Datasets pass on, is
   repeated along them by to_dataarray: each value becomes weight and average of the moments
   that the new object holds *)
Theorem to_dataarray_moments_refuted : exists md dim s y, set_ok s /\ NoDup md /\ cs_to_dataarray (params_for md) dim s = Ok (CX y (params_for md)) /\
  exists v env, nth_error s (env dim) = Some v /\ ~ incl md (x_dims (snd v)) /\ x_inside y env /\ x_at y (name_bind md [0] env) = qz 7 /\ x_at y (name_bind md [1] env) = qz 7.
Proof.
  set (s := [("a", XA ["k"; "mom"] (Tensor [2; 2] (lz [1; 10; 2; 20]%Z))); ("b", XA ["k"] (Tensor [2] (lz [7; 8]%Z)))] : xset).
  exists ["mom"], "v", s. assert (E : xeqb (obj_of (cs_to_dataarray (params_for ["mom"]) "v" s)) ["v"; "k"; "mom"] (Tensor [2; 2; 2] (lz [1; 10; 2; 20; 7; 7; 8; 8]%Z)) = true) by (vm_compute; reflexivity).
  apply xeqb_ok in E. destruct (cs_to_dataarray _ _ s) as [[y q]|] eqn:Ec; [|discriminate E]. cbn [obj_of rmap cx_obj] in E. injection E as E. exists y.
  split. { split; [repeat constructor; cbn; intuition discriminate|]. split; [intros v [<-|[<-|[]]]; (split; [reflexivity|split; [repeat constructor; cbn; intuition discriminate|reflexivity]])|]. intros v w [<-|[<-|[]]] [<-|[<-|[]]] n H1 H2; cbn in H1, H2; intuition subst; try discriminate; reflexivity. }
  split; [repeat constructor; intros []|]. split.
  - f_equal. f_equal. unfold cs_to_dataarray in Ec. destruct (s_to_array "v" s) as [u|]; [|discriminate Ec]. cbn [rbind iter_dims params_for xp_dims] in Ec. destruct (x_transpose _ u); [|discriminate Ec]. cbn [rbind] in Ec. now injection Ec as _ <-.
  - exists ("b", XA ["k"] (Tensor [2] (lz [7; 8]%Z))), (name_bind ["v"] [1] (fun _ => 0)). split; [reflexivity|]. split; [intros Q; destruct (Q "mom"); [now left|discriminate|assumption]|]. rewrite E. split; [intros n [<-|[<-|[<-|[]]]]; vm_compute; lia|]. split; reflexivity.
Qed.
