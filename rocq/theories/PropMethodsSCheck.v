(* Concrete cases for the theorems about objects that hold a Dataset (C163 to C166), and
   claims that fail. *)
From Coq Require Import String.
From Verif Require Import Base BaseLemmas Checks ModelPush ModelPushCov ModelKernels ModelIndex ModelAccum ProofLabels ModelAxes ModelState ModelParams ModelNd ModelWrap ModelSampler ModelLabel ModelMethods ModelConstruct ModelMethodsX ModelDataset ModelMethodsS
  Spec SpecAxes SpecNd SpecIndex SpecMoments PropLabelled SpecLabel SpecLabelTwo SpecLabelVals SpecMethods SpecMethodsX SpecDataset SpecMethodsS
  ProofArrays ProofDataset PropAxes PropLabelCheck PropMomentsXCheck PropDataset PropDatasetTwo PropDatasetReduce PropDatasetCheck PropMethodsX PropMethodsXCheck PropMethodsXReduce PropMethodsS PropMethodsSMore PropMethodsSFail PropMethodsSReduce PropShapeCheck.
Local Open Scope string_scope.
Local Open Scope nat_scope.

(* weight and average at two positions of x, at one position, and values without moments *)
Definition sa : xarr := XA ["x"; "mom"] (Tensor [2; 2] (lz [1; 1; 2; 2]%Z)).
Definition sb : xarr := XA ["mom"] (Tensor [2] (lz [4; 3]%Z)).
Definition sn : xarr := XA ["x"] (Tensor [2] (lz [7; 8]%Z)).
Definition sc : csdata := CS [("a", sa); ("b", sb); ("n", sn)] (params_for ["mom"]).
Definition so : csdata := CS [("b", XA ["mom"] (Tensor [2] (lz [4; 5]%Z))); ("n", sn); ("a", XA ["mom"; "x"] (Tensor [2; 2] (lz [1; 2; 3; 4]%Z)))] (params_for ["mom"]).
Definition K1 := pusher1 5 1.
Definition P1 := packer1 1.
Definition cseqb (r : res csdata) (l : list (sname * (list sname * tensor))) : bool := hseteqb (rmap cs_obj r) l.

Ltac each_in := repeat match goal with H : _ = _ \/ _ |- _ => destruct H as [<-|H] | H : False |- _ => destruct H end.
Ltac one_arr := cbn [snd]; split; [reflexivity|split; [cbn; repeat (apply NoDup_cons; [cbn; intuition discriminate|]); apply NoDup_nil|reflexivity]].
Ltac agree := let n := fresh in let H1 := fresh in let H2 := fresh in intros n H1 H2; cbn in H1, H2; decompose [or] H1; decompose [or] H2; subst; try contradiction; try discriminate; cbn; reflexivity.
Ltac nodup := cbn; repeat (apply NoDup_cons; [cbn; intuition discriminate|]); apply NoDup_nil.
Ltac arrays := split; [nodup|]; split; [let v := fresh in let H := fresh in intros v H; cbn in H; each_in; one_arr|let v := fresh in let w := fresh in let H := fresh in let H1 := fresh in intros v w H H1; cbn in H, H1; each_in; cbn [snd]; agree].
Lemma sc_holds : sholds sc ["mom"].
Proof.
  split; [arrays|]. split; [exact mom_names|]. split; [reflexivity|]. split; [exists ("a", sa); split; [now left|reflexivity]|].
  intros v n Iv M Hn. cbn in Iv, Hn. each_in; try discriminate M; cbn; lia.
Qed.
Lemma so_holds : sholds so ["mom"].
Proof.
  split; [arrays|]. split; [exact mom_names|]. split; [reflexivity|]. split; [exists ("b", XA ["mom"] (Tensor [2] (lz [4; 5]%Z))); split; [now left|reflexivity]|].
  intros v n Iv M Hn. cbn in Iv, Hn. each_in; try discriminate M; cbn; lia.
Qed.

Definition std : xset := [("a", XA ["t"; "x"; "mom"] (Tensor [2; 2; 2] (lz [1; 3; 2; 2; 2; 3; 4; 5]%Z))); ("b", XA ["t"; "mom"] (Tensor [2; 2] (lz [1; 8; 5; 3]%Z))); ("n", sn)].
Definition svs : xset := [("a", XA ["t"; "x"] (Tensor [2; 2] (lz [3; 2; 5; 8]%Z))); ("b", XA ["t"] (Tensor [2] (lz [3; 8]%Z))); ("n", sn)].
Definition sv : xset := [("a", XA ["x"] (Tensor [2] (lz [3; 5]%Z))); ("b", XA [] (Tensor [] (lz [8]%Z))); ("n", sn)].
Definition w1 : dop := DArr (Plain (Tensor [] (lz [1]%Z))).
Ltac fitset := split; [arrays|]; split; [intros n; cbn; tauto|]; let v := fresh in let w := fresh in let H := fresh in let H1 := fresh in intros v w H H1; cbn in H, H1; each_in; cbn [snd]; agree.
Ltac fit1 := split; [let a := fresh in let H := fresh in intros a H; cbn in H; each_in; (exact I || fitset)|
  let a := fresh in let b := fresh in let x := fresh in let y := fresh in let H := fresh in let H1 := fresh in let H2 := fresh in let H3 := fresh in
  intros a b x y H H1 H2 H3; cbn in H, H1; each_in; cbn in H2, H3; each_in; agree].
(* C163: the calls give the pushes of the variables *)
Example push_set_ex : forall stretch,
  let c1 := SData (DSet (cs_obj so)) None in let c2 := SDatas Missing (Val "t") None (DSet std) in let c3 := SVal (DSet sv) w1 [] in let c4 := SVals Missing (Val "t") (DSet svs) w1 [] in
  (forall call, In call [c1; c2; c3; c4] -> args_fit (cs_obj sc) (call_args call) /\ along_samples ["mom"] call "t" /\ map (takes_part ["mom"] "t" call) (cs_obj sc) = [true; true; false]) /\
  cseqb (run_set K1 P1 reader1 stretch sc c1) [("a", (["x"; "mom"], Tensor [2; 2] (lz [2; 2; 4; 3]%Z))); ("b", (["mom"], Tensor [2] (lz [8; 4]%Z))); ("n", (["x"], Tensor [2] (lz [7; 8]%Z)))] = true /\
  cseqb (run_set K1 P1 reader1 stretch sc c2) [("a", (["x"; "mom"], Tensor [2; 2] [qz 4; fr 5 2; qz 8; fr 7 2])); ("b", (["mom"], Tensor [2] [qz 10; fr 7 2])); ("n", (["x"], Tensor [2] (lz [7; 8]%Z)))] = true /\
  cseqb (run_set K1 P1 reader1 stretch sc c3) [("a", (["x"; "mom"], Tensor [2; 2] (lz [2; 2; 3; 3]%Z))); ("b", (["mom"], Tensor [2] (lz [5; 4]%Z))); ("n", (["x"], Tensor [2] (lz [7; 8]%Z)))] = true /\
  cseqb (run_set K1 P1 reader1 stretch sc c4) [("a", (["x"; "mom"], Tensor [2; 2] [qz 3; qz 3; qz 4; fr 7 2])); ("b", (["mom"], Tensor [2] [qz 6; fr 23 6])); ("n", (["x"], Tensor [2] (lz [7; 8]%Z)))] = true.
Proof.
  intros stretch c1 c2 c3 c4. split; [|destruct stretch; repeat split; vm_compute; reflexivity].
  intros call [<-|[<-|[<-|[<-|[]]]]]; (split; [fit1|split; [|vm_compute; reflexivity]]); [exact I| |exact I|].
  - split; [reflexivity|]. split; [reflexivity|]. cbn. intuition discriminate.
  - split; [reflexivity|]. split; [reflexivity|]. repeat constructor.
Qed.
Example push_set_named_ex : let call := SData (DSet (cs_obj so)) None in forall v, In v (cs_obj sc) -> takes_part ["mom"] "" call v = true ->
  map (dim_size (snd v)) ["mom"] = pk_shape P1 /\
  named_call_at P1 reader1 ["mom"] (except_name (x_dims (snd v)) ["mom"]) (dim_size (snd v)) (call_for (fst v) call) (fun env => PushData (moments_at P1 ["mom"] (except_name (x_dims (snd v)) ["mom"]) (its_part (fst v) (DSet (cs_obj so))) env)).
Proof.
  intros call v Iv T. cbn in Iv. each_in; try discriminate T; (split; [reflexivity|]); apply nc_data; (split; [one_arr|]); (split; [intros n Hn; cbn in Hn |- *; tauto|]); (split; [intros n Hn; cbn in Hn |- *; tauto|]); (split; [|reflexivity]); intros n Hn Ho; cbn in Hn, Ho; each_in; try contradiction; try discriminate; reflexivity.
Qed.
(* C164 *)
Example as_dict_ex : cs_as_dict sc = Ok [("a", by_itself (params_for ["mom"]) sa); ("b", by_itself (params_for ["mom"]) sb)] /\ cs_getitem sc "b" = Ok (by_itself (params_for ["mom"]) sb) /\
  cs_getitem sc "n" = Raise EValue /\ cs_getitem sc "z" = Raise EKey /\ forall v, In v (cs_obj sc) -> has_names ["mom"] (snd v) = true -> takes_part ["mom"] "" (SData (DSet (cs_obj so)) None) v = true.
Proof. repeat split. intros v Iv H. cbn in Iv. each_in; (reflexivity || discriminate H). Qed.
(* C165 *)
Example sums_set_ex : set_pair sc so ["mom"] /\ forall stretch,
  cseqb (cs_add K1 P1 stretch sc so) [("a", (["x"; "mom"], Tensor [2; 2] (lz [2; 2; 4; 3]%Z))); ("b", (["mom"], Tensor [2] (lz [8; 4]%Z))); ("n", (["x"], Tensor [2] (lz [7; 8]%Z)))] = true /\
  cseqb (rbind (cs_add K1 P1 stretch sc so) (fun r => cs_sub K1 P1 stretch r so)) [("a", (["x"; "mom"], Tensor [2; 2] (lz [1; 1; 2; 2]%Z))); ("b", (["mom"], Tensor [2] (lz [4; 3]%Z))); ("n", (["x"], Tensor [2] (lz [7; 8]%Z)))] = true.
Proof.
  split; [|intros [|]; split; vm_compute; reflexivity]. split; [exact sc_holds|]. split; [exact so_holds|]. split; [fitset|]. exists ("b", sb). split; [cbn; auto|]. split; reflexivity.
Qed.
(* C166 *)
Definition sfreq : dop := DArr (Labelled (XA ["rep"; "x"] (Tensor [1; 2] (lz [2; 1]%Z)))).
Example reduce_set_ex : moments_where P1 ["x"] ["mom"] (cs_obj sc) /\ has_dim (cs_obj sc) "x" /\ set_size (cs_obj sc) "x" = 2 /\ labels_of 2 (Some [1; 0]%Z) None [1; 0]%Z /\ labels_of 2 None (Some 1%Z) [0; 1]%Z /\ distinct_labels [1; 0]%Z [0; 1]%Z /\ zmax [1; 0]%Z = Ok 1%Z /\
  (forall w, In w (cs_obj sc) -> In "x" (x_dims (snd w)) -> has_names ["mom"] (snd w) = true \/ dim_size (snd w) "x" = 2) /\ new_free "x" (Some "g") (cs_obj sc) /\
  fits (cs_obj sc) sfreq /\ only_dims ["rep"; "x"] sfreq /\ counts_named (its_part "a" sfreq) "rep" "x" 1 2.
Proof.
  split; [|split; [|split; [reflexivity|split; [now left|split; [right; split; [reflexivity|]; exists 1%Z; split; reflexivity|split; [|split; [reflexivity|]]]]]]].
  - intros v Iv H. cbn in Iv. each_in; try discriminate H. split; [one_arr|]. split; [repeat constructor; intros []|]. split; [intros n [<-|[]]; cbn; auto|reflexivity].
  - exists ("a", sa). split; [now left|now left].
  - split; [repeat constructor|]. intros v. cbn. split; [intros [<-|[<-|[]]]; lia|]. intros [[<-|[<-|[]]] _]; auto.
  - split; [intros w Iw; cbn in Iw; each_in; [now left|now left|right; reflexivity]|]. split; [intros n [= <-] _ v Iv; cbn in Iv; each_in; cbn; intuition discriminate|].
    split; [split; [one_arr|intros v Iv; cbn in Iv; each_in; agree]|]. split; [intros x Ix; cbn in Ix; each_in; apply incl_refl|].
    split; [one_arr|]. split; [discriminate|]. split; [intros n; cbn; intuition|]. split; reflexivity.
Qed.
Example reduce_object_set_ex : let n := ("n", (["x"], Tensor [2] (lz [7; 8]%Z))) in let b := ("b", (["mom"], Tensor [2] (lz [4; 3]%Z))) in
  cseqb (cs_reduce K1 P1 argsort_stable sc RMissing (Val (DStr "x")) None None true None false false None) [("a", (["mom"], Tensor [2] [qz 3; fr 5 3])); b; n] = true /\
  cseqb (cs_reduce K1 P1 argsort_stable sc RMissing (Val (DStr "x")) (Some [1; 0]%Z) None true (Some "g") false false None) [("a", (["g"; "mom"], Tensor [2; 2] (lz [2; 2; 1; 1]%Z))); b; ("n", (["g"], Tensor [2] (lz [7; 8]%Z)))] = true /\
  cseqb (cs_reduce K1 P1 argsort_stable sc RMissing (Val (DStr "x")) None (Some 1%Z) false None false false None) [("a", (["x"; "mom"], Tensor [2; 2] (lz [1; 1; 2; 2]%Z))); b; n] = true /\
  rseteqb (cs_cumulative K1 P1 sc Missing (Val "x") false) [("a", ["x"; "mom"], [2; 2], [qz 1; qz 1; qz 3; fr 5 3]); ("b", ["mom"], [2], lz [4; 3]%Z); ("n", ["x"], [2], lz [7; 8]%Z)] = true /\
  cseqb (cs_resample_and_reduce K1 P1 sc sfreq "rep" Missing (Val "x") false) [("a", (["rep"; "mom"], Tensor [1; 2] [qz 4; fr 3 2])); b; n] = true /\
  cseqb (cs_jackknife_and_reduce K1 P1 sc None (Some "rep") Missing (Val "x") false) [("a", (["rep"; "mom"], Tensor [2; 2] (lz [2; 2; 1; 1]%Z))); b; ("n", (["rep"], Tensor [2] (lz [7; 8]%Z)))] = true.
Proof. repeat split; vm_compute; reflexivity. Qed.

(* ---- claims that fail ------------------------------------------------------------------------- *)

(* C167: a call that raises leaves the object as it was: it does not; the variables before
   the one that raises have been changed *)
Definition sq2 : csdata := CS [("a", sa); ("q", XA ["q"; "mom"] (Tensor [3; 2] (lz [1; 1; 1; 1; 1; 1]%Z)))] (params_for ["mom"]).
Lemma sq2_holds : sholds sq2 ["mom"].
Proof.
  split; [arrays|]. split; [exact mom_names|]. split; [reflexivity|]. split; [exists ("a", sa); split; [now left|reflexivity]|].
  intros v n Iv M Hn. cbn in Iv, Hn. each_in; try discriminate M; cbn; lia.
Qed.
Theorem failed_push_refuted : exists c md data, sholds c md /\ args_fit (cs_obj c) [data] /\ forall stretch,
  cs_push_data K1 P1 stretch c data None = Raise EValue /\ exists c', cs_after_push_data K1 P1 stretch c data None = (c', Some EValue) /\ cs_obj c' <> cs_obj c.
Proof.
  exists sq2, ["mom"], (DArr (Plain (Tensor [2; 2] (lz [1; 3; 2; 4]%Z)))). split; [exact sq2_holds|]. split; [fit1|]. intros stretch.
  assert (E : match cs_after_push_data K1 P1 stretch sq2 (DArr (Plain (Tensor [2; 2] (lz [1; 3; 2; 4]%Z)))) None with
    | (c', Some EValue) => hseteqb (Ok (cs_obj c')) [("a", (["x"; "mom"], Tensor [2; 2] (lz [2; 2; 4; 3]%Z))); ("q", (["q"; "mom"], Tensor [3; 2] (lz [1; 1; 1; 1; 1; 1]%Z)))]
    | _ => false end = true) by (destruct stretch; vm_compute; reflexivity).
  split; [destruct stretch; vm_compute; reflexivity|].
  destruct (cs_after_push_data _ _ _ _ _ _) as [c' [[]|]]; try discriminate E. exists c'. split; [reflexivity|]. intros Q. rewrite Q in E. vm_compute in E. discriminate E.
Qed.
(* C170 *)
Example failed_push_ex : let data := DArr (Plain (Tensor [2; 2] (lz [1; 3; 2; 4]%Z))) in sholds sq2 ["mom"] /\ args_fit (cs_obj sq2) [data] /\ forall stretch,
  match cs_after_push_data K1 P1 stretch sq2 data None with
  | (c', Some EValue) => hseteqb (Ok (cs_obj c')) [("a", (["x"; "mom"], Tensor [2; 2] (lz [2; 2; 4; 3]%Z))); ("q", (["q"; "mom"], Tensor [3; 2] (lz [1; 1; 1; 1; 1; 1]%Z)))]
  | _ => false end = true.
Proof. cbv zeta. split; [exact sq2_holds|]. split; [fit1|]. intros [|]; vm_compute; reflexivity. Qed.
Example refused_whole_ex : let t := [("a", sa)] in sholds sq2 ["mom"] /\ ~ (forall n, In n (map fst t) <-> In n (map fst (cs_obj sq2))) /\
  forall stretch, cs_after_push_data K1 P1 stretch sq2 (DSet t) None = (sq2, Some EValue).
Proof. cbv zeta. split; [exact sq2_holds|]. split; [intros H; destruct (proj2 (H "q")) as [Q|[]]; [cbn; auto|discriminate Q]|]. intros [|]; vm_compute; reflexivity. Qed.
(* a variable whose dimensions are in another order than in the result keeps its order,
   and a new dimension of length 1 is dropped *)
Example written_ex : let x := XA ["mom"; "x"] (Tensor [2; 2] (lz [1; 2; 3; 4]%Z)) in let g := LG ["x"; "new"; "mom"] (to_grid (Tensor [2; 1; 2] (lz [5; 6; 7; 8]%Z))) in
  x_dims (written x g) = ["mom"; "x"] /\ eqb1 (tdata (x_val (written x g))) (lz [5; 7; 6; 8]%Z) = true.
Proof. split; [reflexivity|vm_compute; reflexivity]. Qed.
(* C171 *)
Definition so3 : csdata := CS [("b", XA ["mom"] (Tensor [3] (lz [4; 3; 1]%Z)))] (params_for ["mom"]).
Example selections_ex : cs_getitems sc ["n"; "b"] = Ok (CS [("n", XA ["x"] (Tensor [2] (lz [7; 8]%Z))); ("b", sb)] (params_for ["mom"])) /\ cs_getitems sc ["b"; "z"] = Raise EKey /\ cs_getitems sc ["n"] = Raise EValue /\
  NoDup ["n"; "b"] /\ incl ["n"; "b"] (map fst (cs_obj sc)) /\ sholds so3 ["mom"] /\ map (dim_size sb) ["mom"] <> map (dim_size (XA ["mom"] (Tensor [3] (lz [4; 3; 1]%Z)))) ["mom"] /\
  forall stretch, cs_add K1 P1 stretch sc so3 = Raise EValue.
Proof.
  split; [reflexivity|]. split; [reflexivity|]. split; [reflexivity|]. split; [nodup|]. split; [intros n [<-|[<-|[]]]; cbn; auto|]. split; [|split; [discriminate|intros [|]; reflexivity]].
  split; [arrays|]. split; [exact mom_names|]. split; [reflexivity|]. split; [exists ("b", XA ["mom"] (Tensor [3] (lz [4; 3; 1]%Z))); split; [now left|reflexivity]|].
  intros v n Iv M Hn. cbn in Iv, Hn. each_in; try discriminate M; cbn; lia.
Qed.
(* C168: what an object that holds a variable by itself refuses, the object refuses: it
   does not; an argument without the moment dimensions changes nothing *)
Theorem ignored_push_refuted : exists c md data, sholds c md /\ args_fit (cs_obj c) [data] /\ forall stretch,
  cs_push_data K1 P1 stretch c data None = Ok c /\ forall v, In v (cs_obj c) -> has_names md (snd v) = true -> exists e, cx_push_data K1 P1 stretch (by_itself (cs_params c) (snd v)) (its_part (fst v) data) None = Raise e.
Proof.
  exists sc, ["mom"], (DArr (Labelled sn)). split; [exact sc_holds|]. split.
  - split; [intros a [<-|[]]; split; [one_arr|intros v Iv; cbn in Iv; each_in; agree]|]. intros a b x y [<-|[]] [<-|[]] Ix Iy. cbn in Ix, Iy. each_in. agree.
  - intros stretch. split; [destruct stretch; reflexivity|]. intros v Iv H. cbn in Iv. each_in; try discriminate H; eexists; destruct stretch; vm_compute; reflexivity.
Qed.
