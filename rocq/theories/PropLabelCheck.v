(* Concrete cases of the theorems about labelled arrays. *)
From Coq Require Import String.
From Verif Require Import Base BaseLemmas Checks ModelPush ModelPushCov ModelKernels ModelIndex ModelAxes ModelParams ModelWrap ModelNd ModelLabel Spec SpecAxes SpecNd SpecLabel SpecLabelTwo
  Laws ProofSpec ProofAxes ProofArrays ProofMulti PropAxes PropLabelled PropNd PropNdUse ProofLabel PropLabel PropLabelReduce PropLabelTwo PropLabelJack PropLabelExp PropLabelUse.
Local Open Scope string_scope.
Local Open Scope nat_scope.

(* weights and averages of three samples at two positions, moments first *)
Definition lx1 : xarr := XA ["mom"; "s"; "k"] ext1.
(* the same entries with the dimensions in another order *)
Definition lx2 : xarr := XA ["k"; "mom"; "s"] (Tensor [2; 2; 3] (lz [1; 3; 5; 10; 30; 50; 2; 4; 6; 20; 40; 60]%Z)).
Definition lgeqb (r : res (lgrid Qc)) (dims : list sname) (s : list nat) (l : list Qc) : bool :=
  match r with
  | Ok g => (if list_eq_dec string_dec (lg_dims g) dims then true else false) && (if list_eq_dec Nat.eq_dec (gshape (lg_val g)) s then true else false) && eqb1 (gdata (lg_val g)) l
  | Raise _ => false
  end.
Definition logeqb (r : res (lgrid (option Qc))) (dims : list sname) (s : list nat) (l : list (option Qc)) : bool :=
  match r with
  | Ok g => (if list_eq_dec string_dec (lg_dims g) dims then true else false) && gteqb (Ok (lg_val g)) s l
  | Raise _ => false
  end.

Lemma lx1_moments : labelled_moments (packer1 1) ["mom"] lx1.
Proof. split; [split; [reflexivity|split; [repeat constructor; cbn; intuition discriminate|reflexivity]]|]. split; [repeat constructor; intros []|]. split; [intros n [<-|[]]; now left|reflexivity]. Qed.
Lemma lx2_ok : x_ok lx2.
Proof. split; [reflexivity|]. split; [repeat constructor; cbn; intuition discriminate|reflexivity]. Qed.
Example lx12_same : x_same lx1 lx2.
Proof.
  split; [|split].
  - intros n. cbn. tauto.
  - intros n. cbn. intros [<-|[<-|[<-|[]]]]; reflexivity.
  - intros env I. pose proof (I "mom" (or_introl eq_refl)) as I1. pose proof (I "s" (or_intror (or_introl eq_refl))) as I2. pose proof (I "k" (or_intror (or_intror (or_introl eq_refl)))) as I3.
    unfold dim_size in I1, I2, I3. cbn in I1, I2, I3. unfold x_at, tget. cbn [lx1 lx2 x_dims x_val map tshape tdata ext1].
    destruct (env "mom") as [|[|]]; [| |lia]; (destruct (env "s") as [|[|[|]]]; [| | |lia]); (destruct (env "k") as [|[|]]; [| |lia]); reflexivity.
Qed.
Example chooses_ex : chooses 1 Missing (Val "s") "s" lx1 /\ chooses 1 (Val (AInt 1)) Missing "s" lx1 /\ chooses 1 (Val (AInt (-1))) Missing "s" lx2.
Proof.
  split; [left; cbn; auto|]. split; [right; split; [reflexivity|]; exists (AInt 1), 1; cbn; unfold is_axis; repeat split; auto; lia|].
  right. split; [reflexivity|]. exists (AInt (-1)), 2. cbn; unfold is_axis. repeat split; auto; lia.
Qed.

Example cumulative_named_ex : let K := pusher1 5 1 in let P := packer1 1 in let p := params_for ["mom"] in
  lgeqb (x_cumulative K P p false Missing (Val "s") false lx1) ["mom"; "s"; "k"] [2; 3; 2] (lz [1; 2; 4; 6; 9; 12; 10; 20; 25]%Z ++ [fr 100 3; fr 350 9; fr 140 3]) = true /\
  lgeqb (x_cumulative K P p false (Val (AInt 1)) Missing true lx1) ["k"; "s"; "mom"] [2; 3; 2] [qz 1; qz 10; qz 4; qz 25; qz 9; fr 350 9; qz 2; qz 20; qz 6; fr 100 3; qz 12; fr 140 3] = true /\
  lgeqb (x_cumulative K P p false (Val (AInt (-1))) Missing false lx2) ["k"; "mom"; "s"] [2; 2; 3] [qz 1; qz 4; qz 9; qz 10; qz 25; fr 350 9; qz 2; qz 6; qz 12; qz 20; fr 100 3; fr 140 3] = true /\
  x_cumulative K P p false Missing (Val "mom") false lx1 = Raise EValue /\ x_cumulative K P p false Missing (Val "z") false lx1 = Raise EValue.
Proof. repeat split; vm_compute; reflexivity. Qed.
Example rolling_named_ex : let K := pusher1 5 1 in let P := packer1 1 in let p := params_for ["mom"] in
  logeqb (x_rolling_data K P p 2 None false true Missing (Val "s") false lx1) ["mom"; "s"; "k"] [2; 3; 2]
    (map Some (lz [0; 0; 4; 6; 8; 10]%Z) ++ [None; None] ++ map Some [qz 25; fr 100 3; fr 85 2; qz 52]) = true /\
  x_rolling_data K P p 0 None true true Missing (Val "s") false lx1 = Raise EValue.
Proof. repeat split; vm_compute; reflexivity. Qed.
Example grouped_named_ex : let K := pusher1 5 1 in let P := packer1 1 in let p := params_for ["mom"] in
  zmax [0; 1; 0]%Z = Ok 1%Z /\ List.length [0; 1; 0]%Z = dim_size lx1 "s" /\ free_name lx1 "s" (Some "g") /\ ~ free_name lx1 "s" (Some "k") /\
  lgeqb (x_reduce_data_grouped K P p [0; 1; 0]%Z (Some "g") Missing (Val "s") false lx1) ["mom"; "g"; "k"] [2; 2; 2] [qz 6; qz 8; qz 3; qz 4; fr 130 3; qz 50; qz 30; qz 40] = true /\
  x_reduce_data_grouped K P p [0; 1; 0]%Z (Some "k") Missing (Val "s") false lx1 = Raise EValue /\
  x_reduce_data_grouped K P p [0; 1]%Z (Some "g") Missing (Val "s") false lx1 = Raise EValue.
Proof. split; [reflexivity|]. split; [reflexivity|]. split; [right; cbn; intuition discriminate|]. split; [intros [Q|Q]; [discriminate|apply Q; cbn; auto]|]. repeat split; vm_compute; reflexivity. Qed.
Example indexed_named_ex : let K := pusher1 5 1 in let P := packer1 1 in let p := params_for ["mom"] in
  validate_index (dim_size lx1 "s") [0; 1; 2; 2]%Z [0; 2]%Z [2; 4]%Z = Ok tt /\
  lgeqb (x_reduce_data_indexed K P p [0; 1; 2; 2]%Z [0; 2]%Z [2; 4]%Z None (Some "g") Missing (Val "s") false lx1) ["mom"; "g"; "k"] [2; 2; 2] [qz 4; qz 6; qz 10; qz 12; qz 25; fr 100 3; qz 50; qz 60] = true /\
  x_reduce_data_indexed K P p [0; 1; 2; 3]%Z [0; 2]%Z [2; 4]%Z None (Some "g") Missing (Val "s") false lx1 = Raise EValue.
Proof. repeat split; vm_compute; reflexivity. Qed.
Example reduce_named_ex : let K := pusher1 5 1 in let P := packer1 1 in let p := params_for ["mom"] in
  chooses_many ["mom"] Missing (Val (DSeq ["k"; "s"])) ["k"; "s"] lx1 /\ chooses_many ["mom"] Missing PyNone ["s"; "k"] lx1 /\ chooses_many ["mom"] Missing (Val (DStr "s")) ["s"] lx1 /\
  lgeqb (x_reduce_data K P p Missing (Val (DSeq ["k"; "s"])) true false lx1) ["mom"; "s"; "k"] [2; 1; 1] [qz 21; fr 130 3] = true /\
  lgeqb (x_reduce_data K P p Missing PyNone false false lx1) ["mom"] [2] [qz 21; fr 130 3] = true /\
  lgeqb (x_reduce_data K P p Missing (Val (DStr "s")) false true lx1) ["k"; "mom"] [2; 2] [qz 9; fr 350 9; qz 12; fr 140 3] = true.
Proof.
  assert (D : forall l, (forall n, In n l -> n = "s" \/ n = "k") -> forall n, In n l -> ~ In n ["mom"]) by (intros l H n Hn [Q|[]]; destruct (H n Hn); subst; discriminate).
  split; [|split; [|split; [|repeat split; vm_compute; reflexivity]]].
  - split; [intros n [<-|[<-|[]]]; cbn; auto|]. split; [repeat constructor; cbn; intuition discriminate|]. split; [discriminate|]. split; [apply D; intros n [<-|[<-|[]]]; auto|]. right; right; left. auto.
  - split; [intros n [<-|[<-|[]]]; cbn; auto|]. split; [repeat constructor; cbn; intuition discriminate|]. split; [discriminate|]. split; [apply D; intros n [<-|[<-|[]]]; auto|]. left. repeat split; reflexivity.
  - split; [intros n [<-|[]]; cbn; auto|]. split; [repeat constructor; cbn; intuition discriminate|]. split; [discriminate|]. split; [apply D; intros n [<-|[]]; auto|]. right; left. split; [reflexivity|]. now exists "s".
Qed.
(* a table of counts with its dimensions in the other order *)
Definition lfreq : xarr := XA ["s"; "rep"] (Tensor [3; 2] (lz [1; 0; 1; 2; 1; 1]%Z)).
Example resample_named_ex : let K := pusher1 5 1 in let P := packer1 1 in let p := params_for ["mom"] in
  counts_named (Labelled lfreq) "rep" "s" 2 3 /\ ~ In "rep" (x_dims lx1) /\ counts_named (Plain (Tensor [2; 3] (lz [1; 1; 1; 0; 2; 1]%Z))) "rep" "s" 2 3 /\
  counts_table (Labelled lfreq) "rep" "s" 2 3 = counts_table (Plain (Tensor [2; 3] (lz [1; 1; 1; 0; 2; 1]%Z))) "rep" "s" 2 3 /\
  lgeqb (x_resample_data K P p (Labelled lfreq) "rep" Missing (Val "s") false lx1) ["mom"; "rep"; "k"] [2; 2; 2] [qz 9; qz 12; qz 11; qz 14; fr 350 9; fr 140 3; fr 430 11; fr 340 7] = true /\
  x_resample_data K P p (Plain (Tensor [3; 2] (lz [1; 0; 1; 2; 1; 1]%Z))) "k" Missing (Val "s") false lx1 = Raise EValue.
Proof.
  split; [|split; [cbn; intuition discriminate|split; [repeat split; reflexivity|repeat split; vm_compute; reflexivity]]]. split; [split; [reflexivity|split; [repeat constructor; cbn; intuition discriminate|reflexivity]]|].
  split; [discriminate|]. split; [|split; reflexivity]. intros n. cbn. split; [intros [<-|[<-|[]]]; auto|intros [->| ->]; auto].
Qed.
Definition lred : xarr := XA ["k"; "mom"] (Tensor [2; 2] (lz [9; 30; 12; 40]%Z)).
Example jackknife_named_ex : let K := pusher1 5 1 in let P := packer1 1 in let p := params_for ["mom"] in
  moments_given P ["mom"] ["k"] (dim_size lx1) (Labelled lred) /\ moments_given P ["mom"] ["k"] (dim_size lx1) (Plain (Tensor [2] (lz [9; 30]%Z))) /\
  lgeqb (x_jackknife_data K P p None (Some "rep") Missing (Val "s") false lx1) ["mom"; "rep"; "k"] [2; 3; 2] [qz 8; qz 10; qz 6; qz 8; qz 4; qz 6; fr 85 2; qz 52; fr 130 3; qz 50; qz 25; fr 100 3] = true /\
  lgeqb (x_jackknife_data K P p (Some (Labelled lred, None)) (Some "rep") Missing (Val "s") false lx1) ["mom"; "rep"; "k"] [2; 3; 2] [qz 8; qz 10; qz 6; qz 8; qz 4; qz 6; fr 65 2; qz 44; qz 30; qz 40; qz 5; qz 20] = true /\
  (* plain moments with the moments first: axes moved *)
  lgeqb (x_jackknife_data K P p (Some (Plain (Tensor [2; 2] (lz [9; 12; 30; 40]%Z)), Some [0%Z])) (Some "rep") Missing (Val "s") false lx1) ["mom"; "rep"; "k"] [2; 3; 2] [qz 8; qz 10; qz 6; qz 8; qz 4; qz 6; fr 65 2; qz 44; qz 30; qz 40; qz 5; qz 20] = true /\
  x_jackknife_data K P p (Some (Labelled lx1, None)) (Some "rep") Missing (Val "s") false lx1 = Raise EValue /\
  x_jackknife_data K P p None (Some "k") Missing (Val "s") false lx1 = Raise EValue.
Proof.
  split; [|split; [|repeat split; vm_compute; reflexivity]].
  - split; [split; [reflexivity|split; [repeat constructor; cbn; intuition discriminate|reflexivity]]|]. split; [intros n [<-|[]]; cbn; auto|]. split; [intros n [<-|[<-|[]]]; cbn; auto|]. intros n [<-|[<-|[]]]; reflexivity.
  - split; [cbn; lia|]. split; [|reflexivity]. split; [reflexivity|]. split; [repeat constructor; intros []|]. split; [intros c [<-|[]]; cbn; lia|]. split; [cbn; lia|]. intros p [].
Qed.
Example jackknife_moved_ex : let r := Tensor [2; 2] (lz [9; 12; 30; 40]%Z) in
  Forall2 (is_axis (tndim r)) [0%Z] [0] /\ aligns r [0] (seq 0 1) (fun k => dim_size lx1 (nth k ["k"] "")) /\ map (shape_of r) [0] = pk_shape (packer1 1).
Proof.
  cbv zeta. split; [constructor; [split; [cbn; lia|now left]|constructor]|]. split; [|reflexivity]. split; [reflexivity|]. split; [repeat constructor; intros []|]. split; [intros c [<-|[]]; cbn; lia|]. split; [cbn; lia|]. intros p [<-|[]]. now left.
Qed.
Definition lalpha : xarr := XA ["s"; "k"] (Tensor [3; 2] [fr 1 2; fr 1 4; fr 1 2; fr 1 4; fr 1 2; fr 1 4]).
Definition lexp : list (option Qc) := map Some (lz [0; 0]%Z ++ [fr 7 2; fr 11 2; fr 27 4; fr 81 8]) ++ [None; None] ++ map Some [fr 190 7; fr 380 11; fr 1190 27; fr 1340 27].
Example rolling_exp_named_ex : let K := pusher1 5 1 in let P := packer1 1 in let p := params_for ["mom"] in
  decays_given "s" ["k"] lx1 (Labelled lalpha) None 0 /\ decays_given "s" ["k"] lx1 (Plain (Tensor [3] [fr 1 2; fr 1 2; fr 1 2])) None 0 /\ decays_given "s" ["k"] lx1 (Plain (Tensor [] [fr 1 2])) None 0 /\
  decays_given "s" ["k"] lx1 (Plain (x_val lalpha)) (Some (AInt 0)) 0 /\
  logeqb (x_rolling_exp_data K P p (Labelled lalpha) None true (Some 2%Z) true Missing (Val "s") false lx1) ["mom"; "s"; "k"] [2; 3; 2] lexp = true /\
  logeqb (x_rolling_exp_data K P p (Plain (x_val lalpha)) (Some (AInt 0)) true (Some 2%Z) true Missing (Val "s") false lx1) ["mom"; "s"; "k"] [2; 3; 2] lexp = true /\
  x_rolling_exp_data K P p (Labelled (XA ["k"] (Tensor [2] [fr 1 2; fr 1 4]))) None true (Some 2%Z) true Missing (Val "s") false lx1 = Raise EValue /\
  x_rolling_exp_data K P p (Labelled (XA ["s"] (Tensor [2] [fr 1 2; fr 1 4]))) None true (Some 2%Z) true Missing (Val "s") false lx1 = Raise EValue.
Proof.
  split; [|split; [|split; [|split; [|repeat split; vm_compute; reflexivity]]]].
  - split; [split; [reflexivity|split; [repeat constructor; cbn; intuition discriminate|reflexivity]]|]. split; [now left|]. split; [intros n [<-|[<-|[]]]; cbn; auto|]. intros n [<-|[<-|[]]]; reflexivity.
  - right. split; [reflexivity|]. split; [|reflexivity]. split; [reflexivity|]. split; [repeat constructor; intros []|]. split; [intros c [<-|[]]; cbn; lia|]. split; [cbn; lia|]. intros p [].
  - left. reflexivity.
  - right. split; [unfold decay_axis; cbn; unfold is_axis; lia|]. split; [|reflexivity]. split; [reflexivity|]. split; [repeat constructor; intros []|]. split; [intros c [<-|[]]; cbn; lia|]. split; [cbn; lia|]. intros p [<-|[]]. now left.
Qed.
