(* Concrete cases for the theorems about CentralMomentsArray (C111 to C119), and a
   law that fails. *)
From Coq Require Import String.
From Verif Require Import Base BaseLemmas ModelPush ModelKernels ModelIndex ModelAccum ModelAxes ModelState ModelParams ModelNd ModelSampler ModelWrap ModelMethods
  Spec SpecIndex SpecAxes SpecNd SpecMethods ProofArrays ProofMulti ProofNd Checks PropKernels PropReduce PropAxes PropNd PropNdVals PropNdValsUse PropWrap
  ProofMethods PropMethods PropMethodsUse PropMethodsRefuse PropMethodsArith PropMethodsReduce.
Local Open Scope list_scope.
Local Notation length := List.length.

Definition ap1 : aparams := AP (Some 1%Z) (Some [(-1)%Z]).
(* two moment arrays (2, 1, 3), (4, 2, 5), and one of no value axis *)
Definition cm2 : cmarray := CM (Tensor [2; 3] (lz [2; 1; 3; 4; 2; 5]%Z)) ap1.
Definition cm0 : cmarray := CM (Tensor [3] (lz [2; 3; 1]%Z)) ap1.
Definition ceqb (a : res cmarray) (b : tensor) : bool := match a with Ok a => teqb (c_obj a) b | Raise _ => false end.
Lemma cm2_holds : holds cm2 [2] [3].
Proof. split; [reflexivity|]. split; [reflexivity|]. split; [now left|]. split; [repeat apply Forall_cons; try apply Forall_nil; lia|reflexivity]. Qed.
Lemma cm0_holds : holds cm0 [] [3].
Proof. split; [reflexivity|]. split; [reflexivity|]. split; [now left|]. split; [repeat apply Forall_cons; try apply Forall_nil; lia|reflexivity]. Qed.
Lemma va12 : values_array (pusher1 5 2) (fun a => length a = 3) (packer1 2) reader1.
Proof. apply (va_one 5 2). lia. Qed.

(* C115: addition of objects of different value shapes depends on the order: the
   right operand is stretched to the left one, the left one never to the right one *)
Theorem add_of_other_shape_refuted : forall stretch, exists A V (K : pusher A V) ok P R c o s so r, values_array K ok P R /\
  holds c s (pk_shape P) /\ holds o so (pk_shape P) /\ broadcasts [so; s] s /\
  c_add K P stretch c o = Ok r /\ holds r s (pk_shape P) /\ c_add K P stretch o c <> Ok r /\
  (stretch = false -> c_add K P stretch o c = Raise EValue) /\
  (stretch = true -> exists r', c_add K P stretch o c = Ok r' /\ holds r' so (pk_shape P)).
Proof.
  intros stretch.
  destruct (c_add (pusher1 5 2) (packer1 2) stretch cm2 cm0) as [r|e] eqn:E; [|exfalso; destruct stretch; vm_compute in E; discriminate].
  exists arr, Qc, (pusher1 5 2), (fun a => length a = 3), (packer1 2), reader1, cm2, cm0, [2], [], r.
  assert (B : broadcasts [[]; [2]] [2]) by (now apply broadcast_shapes_ok).
  pose proof (add_objects (pusher1 5 2) _ (packer1 2) reader1 va12 stretch cm2 cm0 [2] [] cm2_holds cm0_holds B) as X. rewrite E in X. cbn [combined] in X.
  split; [exact va12|]. split; [exact cm2_holds|]. split; [exact cm0_holds|]. split; [exact B|]. split; [exact E|]. split; [apply X|].
  assert (D : stretch = false -> c_add (pusher1 5 2) (packer1 2) stretch cm0 cm2 = Raise EValue) by (intros ->; vm_compute; reflexivity).
  assert (T : stretch = true -> exists r', c_add (pusher1 5 2) (packer1 2) stretch cm0 cm2 = Ok r' /\ holds r' [] [3]).
  { intros ->. destruct (c_add (pusher1 5 2) (packer1 2) true cm0 cm2) as [r'|e] eqn:E'; [|exfalso; vm_compute in E'; discriminate].
    exists r'. split; [reflexivity|].
    pose proof (push_call_by_positions (pusher1 5 2) _ (packer1 2) reader1 va12 true cm0 [] [2] cm0_holds (or_introl eq_refl) (CallData (c_obj cm2) None) _
      (at_data (packer1 2) reader1 [] [2] (c_obj cm2) [2] eq_refl eq_refl ltac:(now apply broadcast_shapes_ok))) as Y.
    cbn [run_call] in Y. unfold runs_at in Y. change (c_add (pusher1 5 2) (packer1 2) true cm0 cm2) with (c_push_data (pusher1 5 2) (packer1 2) true cm0 (c_obj cm2) None) in E'.
    rewrite E' in Y. apply Y. }
  split; [|split; assumption].
  intros C. destruct stretch.
  - destruct (T eq_refl) as (r' & T1 & T2). rewrite T1 in C. injection C as ->. destruct X as [(_ & S1 & _) _]. destruct T2 as (_ & S2 & _). rewrite S1 in S2. discriminate.
  - rewrite (D eq_refl) in C. discriminate.
Qed.

(* C111 *)
Definition exv : tensor := Tensor [3; 2] (lz [1; 10; 2; 20; 4; 40]%Z).
Definition one0 : tensor := Tensor [] [1%Qc].
Example push_fits_ex :
  push_call_at (packer1 2) reader1 [2] [2] (CallVals (AInt 0) exv one0 []) (fun l => PushVals (samples_on reader1 exv one0 [] 1 l)) /\
  push_call_at (packer1 2) reader1 [] [2] (CallVal (Tensor [2] (lz [3; 5]%Z)) one0 []) (fun l => PushVal (value_on (Tensor [2] (lz [3; 5]%Z)) l) (value_on one0 l)) /\
  landing [] [2] [] = [[0]; [1]] /\
  samples_on reader1 exv one0 [] 1 [1] = [(qz 10, 1%Qc); (qz 20, 1%Qc); (qz 40, 1%Qc)].
Proof.
  split; [|split; [|split]].
  - apply at_vals; [reflexivity| |now apply broadcast_shapes_ok]. split; [reflexivity|]. split; [exists 0; split; [unfold names_axis, is_axis; cbn; lia|reflexivity]|].
    intros t [<-|[]]. split; [reflexivity|now left].
  - apply (at_val (packer1 2) reader1 [] [2] (Tensor [2] (lz [3; 5]%Z)) one0 []); [reflexivity| |now apply broadcast_shapes_ok].
    repeat (apply Forall_cons || apply Forall_nil); reflexivity.
  - reflexivity.
  - reflexivity.
Qed.
Example push_ex : let K := pusher1 5 2 in let P := packer1 2 in forall stretch,
  ceqb (c_push_vals K P reader1 stretch cm2 (AInt 0) exv one0 []) (Tensor [2; 3] [qz 5; fr 9 5; fr 64 25; qz 7; fr 78 7; fr 8868 49]) = true /\
  ceqb (c_push_data K P stretch cm2 (c_obj cm0) None) (Tensor [2; 3] [qz 4; qz 2; qz 3; qz 6; fr 7 3; fr 35 9]) = true /\
  ceqb (c_push_datas K P stretch cm0 (AInt 0) None (c_obj cm2)) (Tensor [3] [qz 8; qz 2; qz 4]) = true /\
  ceqb (c_push_val K P reader1 true cm0 (Tensor [2] (lz [3; 5]%Z)) one0 []) (Tensor [3] [qz 4; fr 7 2; fr 5 4]) = true /\
  c_push_val K P reader1 false cm0 (Tensor [2] (lz [3; 5]%Z)) one0 [] = Raise EValue /\
  c_push_datas K P stretch cm0 (AInt (-1)) None (c_obj cm2) = Raise EValue.
Proof. intros K P stretch. repeat split; try (destruct stretch; vm_compute; reflexivity). Qed.

(* C112: two calls *)
Definition calls2 : list push_call := [CallVals (AInt 0) exv one0 []; CallVal (Tensor [] [qz 7]) one0 []].
Definition las2 : list (list nat * (list nat -> push_op (A := arr) (V := Qc))) :=
  [([2], fun l => PushVals (samples_on reader1 exv one0 [] 1 l)); ([2], fun l => PushVal (value_on (Tensor [] [qz 7]) l) (value_on one0 l))].
Definition xws2 (p : list nat) : list (list (Qc * Qc)) := [samples_on reader1 exv one0 [] 1 p; [(qz 7, 1%Qc)]].
Example history_ex : forall stretch,
  history_fits (packer1 2) reader1 stretch [2] calls2 las2 /\
  (forall p, valid [2] p -> Forall2 (pushes (pusher1 5 2)) (history_at [2] las2 p) (xws2 p) /\ all_nonneg (map snd (concat (xws2 p)))) /\
  exists c0 c, c_zeros (IIter [2%Z]) [2] = Ok c0 /\ foldR (run_call (pusher1 5 2) (packer1 2) reader1 stretch) calls2 c0 = Ok c /\
    teqb (c_obj c) (Tensor [2; 3] [qz 4; fr 7 2; fr 21 4; qz 4; fr 77 4; fr 2667 16]) = true.
Proof.
  intros stretch. split; [|split].
  - apply Forall2_cons; [|apply Forall2_cons; [|apply Forall2_nil]]; (split; [|now right]); cbn [fst snd].
    + apply push_fits_ex.
    + apply (at_val (packer1 2) reader1 [2] [2] (Tensor [] [qz 7]) one0 []); [reflexivity| |now apply broadcast_shapes_ok].
      repeat (apply Forall_cons || apply Forall_nil); reflexivity.
  - intros p V. inversion V as [|n a s' p' Ha V']; subst. inversion V'; subst. destruct a as [|[|a]]; [| |lia].
    + split; [|repeat (apply Forall_cons || apply Forall_nil); qle]. apply Forall2_cons; [apply pu_vals|apply Forall2_cons; [|apply Forall2_nil]]. apply pu_val.
    + split; [|repeat (apply Forall_cons || apply Forall_nil); qle]. apply Forall2_cons; [apply pu_vals|apply Forall2_cons; [|apply Forall2_nil]]. apply pu_val.
  - destruct (c_zeros (IIter [2%Z]) [2]) as [c0|] eqn:E0; [|vm_compute in E0; discriminate]. exists c0.
    destruct (foldR (run_call (pusher1 5 2) (packer1 2) reader1 stretch) calls2 c0) as [c|] eqn:E1.
    + exists c. split; [reflexivity|]. split; [reflexivity|]. vm_compute in E0. injection E0 as <-. destruct stretch; vm_compute in E1; injection E1 as <-; vm_compute; reflexivity.
    + exfalso. vm_compute in E0. injection E0 as <-. destruct stretch; vm_compute in E1; discriminate.
Qed.

(* C113 *)
Example push_is_reduce_ex : values_ok (packer1 2) (AInt 0) 1 exv one0 [] [3; 2] /\ less_axis 1 [3; 2] = [2].
Proof.
  split; [|reflexivity]. split; [reflexivity|]. split; [|now apply broadcast_shapes_ok].
  split; [reflexivity|]. split; [exists 0; split; [unfold names_axis, is_axis; cbn; lia|reflexivity]|]. intros t [<-|[]]. split; [reflexivity|now left].
Qed.

(* C114: three samples do not fit two positions; moments of another order *)
Example misfit_ex : forall stretch,
  ~ call_fits (packer1 2) reader1 stretch [2] (CallVal (Tensor [3] (lz [1; 2; 3]%Z)) one0 []) /\
  c_push_val (pusher1 5 2) (packer1 2) reader1 stretch cm2 (Tensor [3] (lz [1; 2; 3]%Z)) one0 [] = Raise EValue /\
  ~ call_fits (packer1 2) reader1 stretch [2] (CallData (Tensor [2; 2] (lz [1; 2; 3; 4]%Z)) None) /\
  c_push_data (pusher1 5 2) (packer1 2) stretch cm2 (Tensor [2; 2] (lz [1; 2; 3; 4]%Z)) None = Raise EValue.
Proof.
  intros stretch. split; [|split; [destruct stretch; vm_compute; reflexivity|split; [|destruct stretch; vm_compute; reflexivity]]].
  - intros (loop & at_ & H & _). inversion H as [| | |x w y L F B| ]; subst. apply broadcast_shapes_ok in B. discriminate.
  - intros (loop & at_ & H & _). inversion H as [d sd T S B| | | | ]; subst. cbn in S. destruct sd as [|a [|b [|? ?]]]; try discriminate.
Qed.

(* C115, C116 *)
Example arith_ex : let K := pusher1 5 2 in let P := packer1 2 in forall stretch,
  ceqb (c_add K P stretch cm2 cm2) (Tensor [2; 3] (lz [4; 1; 3; 8; 2; 5]%Z)) = true /\
  ceqb (c_sub K P stretch cm2 cm0) (Tensor [2; 3] [qz 0; qz 0; qz 0; qz 2; qz 1; qz 7]) = false /\
  c_sub K P stretch cm2 cm0 = Raise EZeroDiv /\
  ceqb (rbind (c_add K P stretch cm2 cm0) (fun r => c_sub K P stretch r cm0)) (c_obj cm2) = true /\
  teqb (c_obj (c_mul P cm2 (qz 3))) (Tensor [2; 3] (lz [6; 1; 3; 12; 2; 5]%Z)) = true.
Proof. intros K P stretch. repeat split; destruct stretch; vm_compute; reflexivity. Qed.
Example arith_guards_ex : forall p, valid [2] p ->
  clean (pusher1 5 2) (mom_cell (packer1 2) (c_obj cm2) p) /\ (0 < p_wt (pusher1 5 2) (mom_cell (packer1 2) (c_obj cm2) p))%Qc.
Proof.
  intros p V. inversion V as [|n a s' p' Ha V']; subst. inversion V'; subst.
  assert (W : (0 < p_wt (pusher1 5 2) (mom_cell (packer1 2) (c_obj cm2) [a]))%Qc) by (destruct a as [|[|a]]; [| |lia]; vm_compute; reflexivity).
  split; [|exact W]. intros Z. exfalso. rewrite Z in W. discriminate.
Qed.

(* C117, C118, C119: value shape (2, 4) *)
Definition cm24 : cmarray := CM (Tensor [2; 4; 3] (lz [1;1;0; 1;3;0; 1;5;0; 1;7;0;  2;1;1; 2;3;1; 4;5;2; 1;9;0]%Z)) ap1.
Lemma cm24_holds : holds cm24 [2; 4] [3].
Proof. split; [reflexivity|]. split; [reflexivity|]. split; [now left|]. split; [repeat apply Forall_cons; try apply Forall_nil; lia|reflexivity]. Qed.
Lemma cm24_weights : nonneg_weights (pusher1 5 2) (packer1 2) cm24 [2; 4].
Proof.
  intros p V. inversion V as [|n a s' p' Ha V']; subst. inversion V' as [|n' b s'' p'' Hb V'']; subst. inversion V''; subst.
  destruct a as [|[|a]]; [| |lia]; (destruct b as [|[|[|[|b]]]]; [| | | |lia]); qle.
Qed.
Definition freq24 : tensor := Tensor [2; 4] (lz [1; 1; 1; 1; 0; 2; 2; 0]%Z).
Example reduce_guards_ex :
  value_axes (packer1 2) [2; 4] RNone [0; 1] /\ value_axes (packer1 2) [2; 4] (RMany [AInt 1; AInt 0]) [1; 0] /\ value_axes (packer1 2) [2; 4] (ROne (AInt 1)) [1] /\
  value_axis (packer1 2) [2; 4] (AInt (-2)) 1 /\ value_axis (packer1 2) [2; 4] (AComplex (-1)) 1 /\ ~ (exists a, value_axis (packer1 2) [2; 4] (AInt (-1)) a) /\
  zmax_of 1 [0; 1; -1; 0]%Z /\ tensor_ok freq24 /\ tndim freq24 = 2 /\ shape_of freq24 1 = 4 /\ Forall all_nonneg (table freq24) /\
  unit_axes [1] [2; 4] = [2; 1] /\ less_axes [1] [2; 4] = [2] /\ to_last true 0 [2; 4] = [4; 2].
Proof.
  split; [|split; [|split; [|split; [|split; [|split; [|split; [|repeat split]]]]]]].
  - split; [reflexivity|]. split; [repeat constructor; cbn; lia|]. split; [discriminate|]. intros a [<-|[<-|[]]]; cbn; lia.
  - split; [repeat (apply Forall2_cons || apply Forall2_nil); unfold names_axis, is_axis; cbn; lia|]. split; [repeat constructor; cbn; lia|]. split; [discriminate|]. intros a [<-|[<-|[]]]; cbn; lia.
  - split; [repeat (apply Forall2_cons || apply Forall2_nil); unfold names_axis, is_axis; cbn; lia|]. split; [repeat constructor; cbn; lia|]. split; [discriminate|]. intros a [<-|[]]; cbn; lia.
  - split; [unfold names_axis, is_axis|]; cbn; lia.
  - split; [unfold names_axis, is_axis|]; cbn; lia.
  - intros (a & H & L). unfold names_axis, is_axis in H. cbn in *. lia.
  - split; [cbn; auto|]. repeat (apply Forall_cons || apply Forall_nil); lia.
  - repeat (apply Forall_cons || apply Forall_nil); qle.
Qed.
Example reduce_ex : let K := pusher1 5 2 in let P := packer1 2 in forall to_end keepdims,
  ceqb (c_reduce K P cm24 (ROne (AInt 1)) None None to_end false) (Tensor [2; 3] [qz 4; qz 4; qz 5; qz 9; fr 37 9; fr 548 81]) = true /\
  ceqb (c_reduce K P cm24 (ROne (AInt 1)) None None to_end true) (Tensor [2; 1; 3] [qz 4; qz 4; qz 5; qz 9; fr 37 9; fr 548 81]) = true /\
  ceqb (c_reduce K P cm24 (ROne (AInt 1)) None (Some 2%Z) false keepdims)
    (Tensor [2; 2; 3] [qz 2; qz 2; qz 1; qz 2; qz 6; qz 1; qz 4; qz 2; qz 2; qz 5; fr 29 5; fr 104 25]) = true /\
  ceqb (c_reduce K P cm24 (ROne (AInt 0)) (Some [1; 0]%Z) None true keepdims)
    (Tensor [4; 2; 3] (lz [2;1;1; 1;1;0; 2;3;1; 1;3;0; 4;5;2; 1;5;0; 1;9;0; 1;7;0]%Z)) = true /\
  ceqb (c_resample_and_reduce K P cm24 freq24 (AInt 1) false)
    (Tensor [2; 2; 3] [qz 4; qz 4; qz 5; qz 4; qz 4; qz 1; qz 9; fr 37 9; fr 548 81; qz 12; fr 13 3; fr 23 9]) = true /\
  ceqb (c_jackknife_and_reduce K P cm24 None (AInt 0) false)
    (Tensor [2; 4; 3] (lz [2;1;1; 2;3;1; 4;5;2; 1;9;0; 1;1;0; 1;3;0; 1;5;0; 1;7;0]%Z)) = true /\
  rteqb (c_cumulative K P cm24 (AInt 0) false)
    (Tensor [2; 4; 3] [qz 1; qz 1; qz 0; qz 1; qz 3; qz 0; qz 1; qz 5; qz 0; qz 1; qz 7; qz 0;
                       qz 3; qz 1; fr 2 3; qz 3; qz 3; fr 2 3; qz 5; qz 5; fr 8 5; qz 2; qz 8; qz 1]) = true /\
  c_resample_and_reduce K P cm24 freq24 (AInt (-1)) false = Raise EValue.
Proof. intros K P to_end keepdims. repeat split; destruct to_end, keepdims; vm_compute; reflexivity. Qed.
(* a given reduction, the same for all columns *)
Definition red0 : tensor := Tensor [3] (lz [10; 4; 2]%Z).
Example jackknife_given_ex :
  Forall2 (is_axis (tndim red0)) (axes_last 1) [0] /\ aligns red0 [0] [1] (shape_of (c_obj cm24)) /\ map (shape_of red0) [0] = pk_shape (packer1 2) /\
  ceqb (c_jackknife_and_reduce (pusher1 5 2) (packer1 2) cm24 (Some red0) (AInt 0) false)
    (Tensor [2; 4; 3] [qz 9; fr 13 3; fr 10 9; qz 9; fr 37 9; fr 170 81; qz 9; fr 35 9; fr 170 81; qz 9; fr 11 3; fr 10 9;
                       qz 8; fr 19 4; fr (-9) 16; qz 8; fr 17 4; fr 31 16; qz 6; fr 10 3; fr 8 9; qz 9; fr 31 9; fr (-70) 81]) = true.
Proof.
  split; [apply Forall2_cons; [unfold is_axis; cbn; lia|apply Forall2_nil]|]. split.
  - split; [reflexivity|]. split; [repeat constructor; intros []|]. split; [intros c [<-|[]]; cbn; lia|]. split; [cbn; lia|]. intros p [].
  - split; [reflexivity|].
    vm_compute. reflexivity.
Qed.
