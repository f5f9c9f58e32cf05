(* C125-C126: examples, and mom_params of arrays. *)
From Coq Require Import String.
From Verif Require Import Base ModelPush ModelKernels ModelIndex ModelAxes ModelState ModelParams ModelWrap ModelNd ModelLabel ModelWindow Spec SpecAxes SpecNd SpecLabel SpecWindow
  Checks ProofMulti PropParams PropAxes PropNd PropNdUse PropWindow PropWindowUse.
Local Open Scope string_scope.
Local Open Scope nat_scope.

(* x = arange(5), nan = None: the examples of the documentation *)
Definition wx : grid (option nat) := Grid [5] [Some 0; Some 1; Some 2; Some 3; Some 4].
Definition wnone : xparams := XP None None.
Example windows_doc : let N := @None nat in let s := @Some nat in
  construct_windows N (Scalar 4%Z) (Val [AInt 0]) (Scalar false) (Scalar 1%Z) None None MPNone wx =
    Ok (Grid [4; 5] [N; N; N; s 0; s 1;  N; N; s 0; s 1; s 2;  N; s 0; s 1; s 2; s 3;  s 0; s 1; s 2; s 3; s 4]) /\
  construct_windows_labelled N wnone (Scalar 4%Z) Missing (Val (DStr "dim_0")) (Scalar true) (Scalar 1%Z) None (LG ["dim_0"] wx) =
    Ok (LG ["rolling_dim_0"; "dim_0"] (Grid [4; 5] [N; N; s 0; s 1; s 2;  N; s 0; s 1; s 2; s 3;  s 0; s 1; s 2; s 3; s 4;  s 1; s 2; s 3; s 4; N])) /\
  construct_windows N (Scalar 2%Z) (Val [AInt (-1)]) (Scalar false) (Scalar (-2)%Z) None None MPNone wx =
    Ok (Grid [2; 3] [s 3; s 1; N;  s 4; s 2; s 0]).
Proof. repeat split; reflexivity. Qed.

(* two dimensions at once, one moment dimension in front; windows 3 and 2, one
   centered, strides 2 and -1, names given *)
Definition wg : lgrid (option nat) := LG ["mom"; "x"; "y"] (Grid [2; 4; 2] (map Some (seq 0 16))).
Definition wsz (n : sname) : nat := if String.eqb n "mom" then 2 else if String.eqb n "x" then 4 else 2.
Definition wrs : list roll := [Roll "y" 3 true (-1) "wy"; Roll "x" 2 false 2 "wx"].
Definition wp : xparams := XP (Some 1%Z) (Some ["mom"]).
Example windows_two : let N := @None nat in
  (exists out, construct_windows_labelled N wp (Seq [3; 2]%Z) Missing (Val (DIter ["y"; "x"])) (Seq [true; false]) (Seq [(-1); 2]%Z) (Some (Seq ["wy"; "wx"])) wg = Ok out /\ shows_windows N wrs wsz wg out) /\
  rmap (fun o => (lg_dims o, gshape (lg_val o), l_at N o (fun n => if String.eqb n "wy" then 1 else if String.eqb n "wx" then 0 else if String.eqb n "x" then 1 else if String.eqb n "y" then 0 else 1)))
    (construct_windows_labelled N wp (Seq [3; 2]%Z) Missing (Val (DIter ["y"; "x"])) (Seq [true; false]) (Seq [(-1); 2]%Z) (Some (Seq ["wy"; "wx"])) wg) =
    Ok (["wy"; "wx"; "mom"; "x"; "y"], [3; 2; 2; 2; 2], Some 11) /\
  construct_windows_labelled N wp (Seq [3; 2; 2]%Z) Missing (Val (DIter ["y"; "x"])) (Scalar true) (Scalar 1%Z) None wg = Raise EValue /\
  construct_windows_labelled N wp (Scalar 2%Z) Missing (Val (DIter ["y"; "x"])) (Scalar true) (Scalar 1%Z) (Some (Seq ["w"; "w"])) wg = Raise EValue /\
  construct_windows_labelled N wp (Scalar 2%Z) Missing (Val (DIter ["y"; "x"])) (Scalar true) (Seq [1; 0]%Z) None wg = Raise EValue /\
  construct_windows_labelled N wp (Scalar 2%Z) Missing (Val (DStr "mom")) (Scalar true) (Scalar 1%Z) None wg = Raise EValue.
Proof.
  cbv zeta. split; [|repeat split; vm_compute; reflexivity].
  apply windows_by_name; try reflexivity.
  - cbn. repeat constructor; cbn; intuition discriminate.
  - exists [2; 1]. split; [repeat constructor|]. split; [intros d [<-|[<-|[]]]; cbn; intuition discriminate|].
    right. left. split; [reflexivity|]. exists (DIter ["y"; "x"]). split; [reflexivity|]. now right.
  - repeat constructor; cbn; intuition discriminate.
  - now left.
  - now left.
  - now left.
  - right. now left.
  - repeat constructor; cbn; intuition discriminate.
  - intros n [<-|[<-|[]]]; cbn; intuition discriminate.
  - repeat constructor; cbn; lia.
Qed.

(* a dimension named twice: refused, but the last window counts where the first
   window name is that of another dimension *)
Example windows_repeated_ex : let N := @None nat in
  (exists rs, selects wp Missing (Val (DIter ["x"; "x"])) (lg_dims wg) (map r_dim rs) /\ ~ NoDup (map r_dim rs) /\
     stands_for 2 (Seq [3; 2]%Z) (map r_win rs) /\ window_names (Some (Seq ["w"; "v"])) (map r_dim rs) (map r_name rs) /\
     (forall n, In n (map r_name rs) -> ~ In n (lg_dims wg))) /\
  construct_windows_labelled N wp (Seq [3; 2]%Z) Missing (Val (DIter ["x"; "x"])) (Scalar true) (Scalar 1%Z) (Some (Seq ["w"; "v"])) wg = Raise EValue /\
  rmap (fun o => (lg_dims o, gshape (lg_val o))) (construct_windows_labelled N wp (Seq [3; 2]%Z) Missing (Val (DIter ["x"; "x"])) (Scalar true) (Scalar 1%Z) (Some (Seq ["y"; "v"])) wg) =
    Ok (["y"; "v"; "mom"; "x"], [2; 2; 2; 4]).
Proof.
  cbv zeta. split; [|split; vm_compute; reflexivity].
  exists [Roll "x" 3 true 1 "w"; Roll "x" 2 true 1 "v"]. cbn [map r_dim r_win r_name]. repeat split.
  - exists [1; 1]. split; [repeat constructor|]. split.
    + intros d [<-|[<-|[]]]; cbn; intuition discriminate.
    + right. left. split; [reflexivity|]. exists (DIter ["x"; "x"]). split; [reflexivity|]. now right.
  - intros N. inversion N as [|? ? H]; subst. apply H. now left.
  - now left.
  - right. now left.
  - intros n [<-|[<-|[]]]; cbn; intuition discriminate.
Qed.

(* the hypotheses of [windows_of_array] and [rolling_is_reduction_of_windows] *)
Example windows_array_ex :
  told_moments 3 (Some 1%Z) None [2] /\ told_moments 3 None (Some (IIter [0; -1]%Z)) [0; 2] /\ told_moments 2 None None [] /\
  rolls_axes 3 PyNone [2] [0; 1] /\ rolls_axes 3 (Val [AInt (-2); AComplex 0]) [2] [1; 0] /\
  moment_array (pusher1 5 1) (fun a => List.length a = 2) (packer1 1) /\
  axis_of_moments (packer1 1) [0%Z] (AInt 1) 1 [0] ext1 /\ moments_in (pusher1 5 1) (packer1 1) [0] ext1 /\ 0 < shape_of ext1 1 /\
  Forall2 (is_axis (S (tndim ext1))) [1%Z] (map S [0]) /\
  gteqb (rmap (fun o => Grid (gshape o) (map Some (gdata o))) (construct_windows 0%Qc (Scalar 2%Z) (Val [AInt 1]) (Scalar false) (Scalar 1%Z) None (Some (IIter [0%Z])) MPNone (of_tensor ext1)))
    [2; 2; 3; 2] (map Some (lz [0; 0; 1; 2; 3; 4; 0; 0; 10; 20; 30; 40;  1; 2; 3; 4; 5; 6; 10; 20; 30; 40; 50; 60]%Z)) = true /\
  match construct_windows 0%Qc (Scalar 2%Z) (Val [AInt 1]) (Scalar false) (Scalar 1%Z) None (Some (IIter [0%Z])) MPNone (of_tensor ext1) with
  | Ok W => rteqb (reduce_data_nd (pusher1 5 1) (packer1 1) [1%Z] (Some [AInt 0]) false false (to_tensor W))
              (Tensor [2; 3; 2] (lz [1; 2; 4; 6; 8; 10; 10; 20; 25]%Z ++ [fr 100 3; fr 170 4; fr 520 10])) | Raise _ => false end = true /\
  gteqb (rolling_data_nd (pusher1 5 1) (packer1 1) 2 (Some 2%Z) false true (AInt 1) [0%Z] false ext1)
    [2; 3; 2] ([Some (qz 0); Some (qz 0)] ++ map Some (lz [4; 6; 8; 10]%Z) ++ [None; None] ++ map Some [qz 25; fr 100 3; fr 170 4; fr 520 10]) = true.
Proof.
  split; [right; exists [(-1)%Z]; repeat split; try (now left); [repeat constructor; unfold is_axis; lia|right; now repeat split]|].
  split; [right; exists [0; -1]%Z; repeat split; try (now right); [repeat constructor; unfold is_axis; lia|left; split; left; reflexivity]|].
  split; [left; now repeat split|].
  split; [split; [repeat constructor; cbn; intuition discriminate|]; split; [intros a [<-|[<-|[]]]; cbn; lia|now left]|].
  split; [split; [repeat constructor; cbn; intuition discriminate|]; split; [intros a [<-|[<-|[]]]; cbn; lia|right]; eexists; split; [reflexivity|]; repeat constructor; cbn; unfold is_axis; lia|].
  split; [constructor; lia|]. split; [apply ext1_axis; now left|]. split; [apply ext1_moments|]. split; [cbn; lia|].
  split; [repeat constructor; unfold is_axis; cbn; lia|]. repeat split; vm_compute; reflexivity.
Qed.

(* ---- mom_params of arrays ---------------------------------------------------------------- *)

(* construct_rolling_window_array(x, ..., mom_params=p) of an array does not look at p *)
Theorem windows_mom_params_unused : forall {T} (fill : T) window axis center stride mom_ndim mom_axes mp mp' g,
  construct_windows fill window axis center stride mom_ndim mom_axes mp g = construct_windows fill window axis center stride mom_ndim mom_axes mp' g.
Proof. reflexivity. Qed.
(* so the moment axis is windowed like any other, where mom_ndim= refuses it *)
Theorem windows_mom_params_refuted : exists (g : grid (option nat)),
  construct_windows None (Scalar 2%Z) (Val [AInt (-1)]) (Scalar false) (Scalar 1%Z) (Some 1%Z) None MPNone g = Raise EValue /\
  construct_windows None (Scalar 2%Z) (Val [AInt (-1)]) (Scalar false) (Scalar 1%Z) None None (MPParams (Some 1%Z) None None) g =
    Ok (Grid [2; 2; 2] [None; Some 0; None; Some 2; Some 0; Some 1; Some 2; Some 3]) /\
  match construct_windows None (Scalar 2%Z) PyNone (Scalar false) (Scalar 1%Z) (Some 1%Z) None MPNone g with Ok o => gshape o = [2; 2; 2] | Raise _ => False end /\
  match construct_windows None (Scalar 2%Z) PyNone (Scalar false) (Scalar 1%Z) None None (MPParams (Some 1%Z) None None) g with Ok o => gshape o = [2; 2; 2; 2] | Raise _ => False end.
Proof. exists (Grid [2; 2] (map Some (seq 0 4))). repeat split; vm_compute; reflexivity. Qed.
