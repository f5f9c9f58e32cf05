(* Concrete cases for dimensions and shapes an object tells (C202). *)
From Coq Require Import String.
From Verif Require Import Base BaseLemmas Checks ModelKernels ModelIndex ModelAxes ModelParams ModelWrap ModelNd ModelSwap ModelProps
  Spec SpecAxes SpecNd SpecLabel PropLabelled ProofArrays PropAxes PropMethodsXCheck PropMethodsSCheck PropSwap PropSwapCheck PropProps.
Local Open Scope string_scope.
Local Open Scope nat_scope.

(* two moment dimensions around a dimension of values, in the other order than the array's *)
Definition w3 : cmdata := CX (XA ["a"; "x"; "b"] (Tensor [2; 1; 3] (lz [1; 2; 3; 4; 5; 6]%Z))) (params_for ["b"; "a"]).
Lemma w3_holds : xholds w3 ["b"; "a"].
Proof. split; [one_arr|]. split; [nodup|]. split; [now right|]. split; [intros n [<-|[<-|[]]]; cbn; auto|]. split; [repeat (apply Forall_cons; [vm_compute; lia|]); apply Forall_nil|reflexivity]. Qed.
Example dims_told_ex : xholds wx ["mom"] /\ cx_val_dims wx = Ok ["x"; "y"] /\ cx_val_shape wx = Ok [2; 2] /\ cx_mom_shape wx = Ok [3] /\ cx_val_ndim wx = Ok 2%Z /\ cx_sizes wx "mom" = Ok 3 /\ cx_sizes wx "t" = Raise EKey /\
  xholds w3 ["b"; "a"] /\ cx_val_dims w3 = Ok ["x"] /\ cx_val_shape w3 = Ok [1] /\ cx_mom_shape w3 = Ok [3; 2] /\ cx_val_ndim w3 = Ok 1%Z.
Proof. repeat split; try (vm_compute; reflexivity); try apply wx_holds; apply w3_holds. Qed.
Example dims_told_swap_ex : let l := [("x", "t")] in let f := new_name l in
  NoDup (map fst l) /\ gives l f /\ (forall m, In m ["b"; "a"] -> ~ In m (map fst l)) /\ swappable l f (cx_obj w3) /\
  rbind (cx_swap_dims w3 l true) cx_val_dims = Ok ["t"] /\ rmap cx_dims (cx_swap_dims w3 l true) = Ok ["t"; "b"; "a"] /\ rmap cx_shape (cx_swap_dims w3 l true) = Ok [1; 3; 2].
Proof.
  intros l f. assert (N : NoDup (map fst l)) by nodup. split; [exact N|]. split; [now apply new_name_gives|]. split; [intros m [<-|[<-|[]]]; cbn; intuition discriminate|].
  split; [split; [intros n Hn; cbn in Hn |- *; tauto|nodup]|]. repeat split; vm_compute; reflexivity.
Qed.
