(* Concrete cases for the theorems about coordinates (C172 to C177), and claims that fail. *)
From Coq Require Import String Permutation Sorted.
From Verif Require Import Base BaseLemmas ModelPush ModelKernels ModelIndex ModelAccum ModelAxes ModelState ModelSelect ModelParams ModelNd ModelWrap ModelLabel ModelOut ModelMethods ModelConstruct ModelMethodsX ModelShape ModelCoords
  Spec SpecAxes SpecNd SpecIndex PropLabelled PropNd SpecLabel SpecLabelTwo PropKernels PropLabelReduce Laws ProofAxes ProofArrays ProofNd PropParams ProofIndex ProofLabels PropIndex ProofLabel ProofLabelMany PropLabel PropLabelTwo
  Checks PropConstructCheck PropMethodsX PropMethodsXReduce PropMethodsXCheck PropLabelCheck SpecCoords PropCoords PropCoordsReduce.
Local Open Scope string_scope.
Local Open Scope list_scope.

Local Notation KK := (pusher1 5 2).
Local Notation PP := (packer1 2).
(* labels of the positions of x, other labels along x, and a label of the array *)
Definition exc : coords Z := [("x", Co ["x"] (Grid [3] [10; 20; 30]%Z)); ("lab", Co ["x"] (Grid [3] [7; 5; 7]%Z)); ("run", Co [] (Grid [] [4]%Z))].
Lemma exc_of : coords_of (cx_obj cxa) exc.
Proof.
  split; [cbn; repeat (apply NoDup_cons; [cbn; intuition discriminate|]); apply NoDup_nil|].
  intros n c H. cbn in H. destruct H as [H|[H|[H|[]]]]; injection H as <- <-; cbn [co_dims co_val gshape]; (split; [repeat (apply NoDup_cons; [cbn; intuition discriminate|]); apply NoDup_nil|]); (split; [intros m Hm; cbn in Hm |- *; tauto|]); (split; [reflexivity|]); intros Q; cbn in Q; destruct Q as [Q|[Q|[]]]; congruence.
Qed.
Definition coeqb (a b : coords Z) : bool :=
  if list_eq_dec (fun p q : sname * (list sname * (list nat * list Z)) => ltac:(repeat decide equality)) (map (fun c => (fst c, (co_dims (snd c), (gshape (co_val (snd c)), gdata (co_val (snd c)))))) a)
       (map (fun c => (fst c, (co_dims (snd c), (gshape (co_val (snd c)), gdata (co_val (snd c)))))) b) then true else false.
Definition reads (r : res (cmdata * coords Z)) (cs : coords Z) : bool := match r with Ok (_, cs') => coeqb cs' cs | Raise _ => false end.
Definition greads {B} (r : res (lgrid B * coords Z)) (cs : coords Z) : bool := match r with Ok (_, cs') => coeqb cs' cs | Raise _ => false end.
Local Notation run := ("run", Co [] (Grid [] [4]%Z)).
Local Notation p1 := (params_for ["mom"]).

Lemma exc_free new : new <> "x" -> new <> "lab" -> new <> "run" -> free_coord exc "x" new.
Proof. intros H1 H2 H3. right. cbn. intuition congruence. Qed.
(* C172 *)
Example indexed_coords_ex : coords_of (cx_obj cxa) exc /\ free_coord exc "x" "g" /\ validate_index 3 [2; 0; 1]%Z [0; 1]%Z [1; 3]%Z = Ok tt /\ (forall k, k < 2 -> (nth k [0; 1] 0 < nth k [1; 3] 0)%Z) /\
  greads (xc_reduce_data_indexed 0%Z KK PP p1 [2; 0; 1]%Z [0; 1]%Z [1; 3]%Z None PFirst None (Some "g") Missing (Val "x") false (cx_obj cxa) exc)
    [("g", Co ["g"] (Grid [2] [30; 10]%Z)); ("lab", Co ["g"] (Grid [2] [7; 7]%Z)); run] = true /\
  greads (xc_reduce_data_indexed 0%Z KK PP p1 [2; 0; 1]%Z [0; 1]%Z [1; 3]%Z None PLast None (Some "g") Missing (Val "x") false (cx_obj cxa) exc)
    [("g", Co ["g"] (Grid [2] [30; 20]%Z)); ("lab", Co ["g"] (Grid [2] [7; 5]%Z)); run] = true.
Proof.
  split; [exact exc_of|]. split; [apply exc_free; discriminate|]. split; [reflexivity|]. split; [intros [|[|k]] H; cbn; lia|]. split; vm_compute; reflexivity.
Qed.
(* C173 *)
Example result_coords_ex :
  greads (xc_reduce_data KK PP p1 Missing (Val (DStr "x")) false false (cx_obj cxa) exc) [run] = true /\
  greads (xc_cumulative KK PP p1 false Missing (Val "x") false (cx_obj cxa) exc) exc = true /\
  greads (xc_rolling_data KK PP p1 2 None false false Missing (Val "x") false (cx_obj cxa) exc) exc = true /\
  greads (xc_resample_data KK PP p1 (Plain (Tensor [2; 3] (lz [1; 1; 1; 0; 2; 1]%Z))) "rep" Missing (Val "x") false (cx_obj cxa) exc) [run] = true /\
  greads (xc_jackknife_data KK PP p1 None (Some "jack") Missing (Val "x") false (cx_obj cxa) exc) [("jack", Co ["jack"] (Grid [3] [10; 20; 30]%Z)); ("lab", Co ["jack"] (Grid [3] [7; 5; 7]%Z)); run] = true /\
  greads (xc_reduce_data_grouped KK PP p1 [0; 2; 2]%Z None None Missing (Val "x") false (cx_obj cxa) exc) [run] = true /\
  zmax_of 2 [0; 2; 2]%Z /\
  greads (xc_reduce_data_grouped KK PP p1 [0; 2; 2]%Z (Some [5; 6; 8]%Z) (Some "g") Missing (Val "x") false (cx_obj cxa) exc) [run; ("g", Co ["g"] (Grid [3] [5; 6; 8]%Z))] = true /\
  xc_reduce_data_grouped KK PP p1 [0; 2; 2]%Z (Some [5; 6]%Z) (Some "g") Missing (Val "x") false (cx_obj cxa) exc = Raise EValue.
Proof. split; [vm_compute; reflexivity|]. do 5 (split; [vm_compute; reflexivity|]). split; [split; [cbn; auto|repeat apply Forall_cons; try apply Forall_nil; lia]|]. split; vm_compute; reflexivity. Qed.
Local Notation red by_ block pol groups gd := (cxc_reduce 0%Z KK PP Z.eqb Z.leb (fun v => (v <? 0)%Z) Z.of_nat argsort_stable cxa exc RMissing (Val (DStr "x")) by_ block pol groups gd false false).
(* C174 *)
Example reduce_by_integers_coords_ex : along 1 RMissing (Val (DStr "x")) "x" (cx_obj cxa) /\ distinct_labels [0; 2; 2]%Z [0; 2]%Z /\ coords_of (cx_obj cxa) exc /\ stable argsort_stable /\
  reads (red (Some (ByCodes [0; 2; 2]%Z)) None PFirst None (Some "g")) [("g", Co ["g"] (Grid [2] [10; 20]%Z)); ("lab", Co ["g"] (Grid [2] [7; 5]%Z)); run] = true /\
  reads (red (Some (ByCodes [0; 2; 2]%Z)) None PLast None None) [("x", Co ["x"] (Grid [2] [10; 30]%Z)); ("lab", Co ["x"] (Grid [2] [7; 7]%Z)); run] = true.
Proof. split; [left; cbn; auto|]. split; [exact exlabels_distinct|]. split; [exact exc_of|]. split; [apply argsort_stable_ok|]. split; vm_compute; reflexivity. Qed.
(* C175 *)
Example reduce_by_name_coords_ex : labels_named cxa exc Z.of_nat "x" "lab" [7; 5; 7]%Z /\ labels_named cxa [] Z.of_nat "x" "x" [0; 1; 2]%Z /\
  sorted_labels Z.leb (fun v => (v <? 0)%Z) [7; 5; 7]%Z [5; 7]%Z /\ label_codes (fun v => (v <? 0)%Z) [7; 5; 7]%Z [5; 7]%Z [1; 0; 1]%Z /\
  reads (red (Some (ByCoord "lab")) None PFirst None None) [("x", Co ["x"] (Grid [2] [20; 10]%Z)); ("lab", Co ["x"] (Grid [2] [5; 7]%Z)); run] = true /\
  reads (red (Some (ByCoord "lab")) None PLast None (Some "g")) [("g", Co ["g"] (Grid [2] [20; 30]%Z)); ("lab", Co ["g"] (Grid [2] [5; 7]%Z)); run] = true /\
  reads (red (Some (ByCoord "lab")) None PGroup None (Some "g")) [run; ("g", Co ["g"] (Grid [2] [5; 7]%Z))] = true /\
  reads (red (Some (ByCoord "lab")) None PGroup (Some [1; 2]%Z) None) [run; ("x", Co ["x"] (Grid [2] [1; 2]%Z))] = true /\
  red (Some (ByCoord "other")) None PFirst None None = Raise EKey.
Proof.
  split; [left; exists (Co ["x"] (Grid [3] [7; 5; 7]%Z)); split; [cbn; auto|]; split; reflexivity|]. split; [right; split; [reflexivity|]; split; [intros []|reflexivity]|].
  split; [split; [repeat (apply NoDup_cons; [cbn; intuition discriminate|]); apply NoDup_nil|]; split; [repeat constructor|intros v; cbn; split; [intros [<-|[<-|[]]]; auto|intros [[<-|[<-|[<-|[]]]] _]; auto]]|].
  split; [repeat (apply Forall2_cons; [right; split; [reflexivity|]|]); [now exists 1|now exists 0|now exists 1|apply Forall2_nil]|].
  split; [vm_compute; reflexivity|]. split; [vm_compute; reflexivity|]. split; [vm_compute; reflexivity|]. split; vm_compute; reflexivity.
Qed.
(* C176 *)
Example reduce_blocks_coords_ex : 0 < 1 <= dim_size (cx_obj cxa) "x" /\
  reads (red None (Some 1%Z) PFirst None None) exc = true /\
  reads (red None (Some 2%Z) PFirst None None) [("x", Co ["x"] (Grid [1] [10]%Z)); ("lab", Co ["x"] (Grid [1] [7]%Z)); run] = true /\
  reads (red None (Some 2%Z) PLast None None) [("x", Co ["x"] (Grid [1] [20]%Z)); ("lab", Co ["x"] (Grid [1] [5]%Z)); run] = true /\
  reads (red None (Some 1%Z) PGroup None None) [run; ("x", Co ["x"] (Grid [3] [0; 1; 2]%Z))] = true /\
  reads (red None None PFirst None None) [run] = true.
Proof. split; [cbn; lia|]. repeat split; vm_compute; reflexivity. Qed.
(* C177 *)
Example sel_ex : NoDup [10; 20; 30]%Z /\
  cxeqb (cx_sel_at Z.eqb cxa "x" [10; 20; 30]%Z 20%Z) ["mom"] (Tensor [3] (lz [2; 2; 2]%Z)) = true /\
  cxeqb (cx_sel_list Z.eqb cxa "x" [10; 20; 30]%Z [30; 10]%Z) ["mom"; "x"] (Tensor [3; 2] (lz [4; 1; 3; 1; 2; 2]%Z)) = true /\
  cx_sel_at Z.eqb cxa "x" [10; 20; 30]%Z 0%Z = Raise EKey.
Proof. split; [repeat (apply NoDup_cons; [cbn; intuition discriminate|]); apply NoDup_nil|]. repeat split; vm_compute; reflexivity. Qed.

(* claims that fail *)

(* C178: the coordinate of a group is that of one of its rows: for a group without rows it
   is that of a row of another group *)
Theorem empty_group_coords_refuted : exists x cs index start end_ g cs' k j row,
  coords_of x cs /\ validate_index (dim_size x "x") index start end_ = Ok tt /\
  xc_reduce_data_indexed 0%Z KK PP p1 index start end_ None PFirst None None Missing (Val "x") false x cs = Ok (g, cs') /\
  k <> j /\ nth k start 0%Z = nth k end_ 0%Z /\ In (Z.of_nat row) (slice (Z.to_nat (nth j start 0%Z)) (Z.to_nat (nth j end_ 0%Z)) index) /\
  exists c c', In ("x", c) cs /\ In ("x", c') cs' /\ co_at 0%Z c' (fun _ => k) = co_at 0%Z c (fun _ => row) /\ forall i, i <> row -> i < dim_size x "x" -> co_at 0%Z c (fun _ => i) <> co_at 0%Z c (fun _ => row).
Proof.
  exists (cx_obj cxa), exc, [0; 1; 2]%Z, [0; 1; 1]%Z, [1; 1; 3]%Z.
  assert (E : greads (xc_reduce_data_indexed 0%Z KK PP p1 [0; 1; 2]%Z [0; 1; 1]%Z [1; 1; 3]%Z None PFirst None None Missing (Val "x") false (cx_obj cxa) exc)
    [("x", Co ["x"] (Grid [3] [10; 20; 20]%Z)); ("lab", Co ["x"] (Grid [3] [7; 5; 5]%Z)); run] = true) by (vm_compute; reflexivity).
  destruct (xc_reduce_data_indexed _ _ _ _ _ _ _ _ _ _ _ _ _ _ _ _) as [[g cs']|e]; [|discriminate E]. cbn [greads] in E. exists g, cs', 1, 2, 1.
  split; [exact exc_of|]. split; [reflexivity|]. split; [reflexivity|]. split; [discriminate|]. split; [reflexivity|]. split; [vm_compute; auto|].
  unfold coeqb in E. destruct (list_eq_dec _ _ _) as [Q|]; [|discriminate E]. destruct cs' as [|[n c'] cs']; [discriminate Q|]. cbn [map fst snd] in Q. destruct c' as [ds [sh dt]]. cbn in Q. injection Q as -> -> -> -> _.
  exists (Co ["x"] (Grid [3] [10; 20; 30]%Z)), (Co ["x"] (Grid [3] [10; 20; 20]%Z)). split; [now left|]. split; [now left|]. split; [reflexivity|].
  intros [|[|[|i]]] H L; cbn in L |- *; try discriminate; try lia.
Qed.
(* C179: a call that gives values gives coordinates: an index without positions raises *)
Theorem empty_index_coords_refuted : exists x index start end_ g, validate_index (dim_size x "x") index start end_ = Ok tt /\
  x_reduce_data_indexed KK PP p1 index start end_ None None Missing (Val "x") false x = Ok g /\ forall cs pol, pol = PFirst ->
  xc_reduce_data_indexed 0%Z KK PP p1 index start end_ None pol None None Missing (Val "x") false x cs = Raise EIndex.
Proof.
  exists (cx_obj cxa), [], [0]%Z, [0]%Z. destruct (x_reduce_data_indexed KK PP p1 [] [0]%Z [0]%Z None None Missing (Val "x") false (cx_obj cxa)) as [g|e] eqn:E; [|vm_compute in E; discriminate E].
  exists g. split; [reflexivity|]. split; [reflexivity|]. intros cs pol ->. unfold xc_reduce_data_indexed. rewrite E. reflexivity.
Qed.
(* C180: the coordinates are those of the first row of the group: only if np.argsort keeps
   the order of equal codes *)
Theorem first_row_coords_refuted : exists argsort c cs by_ r c', sorts argsort /\ xholds c ["mom"] /\ coords_of (cx_obj c) cs /\
  cxc_reduce 0%Z KK PP Z.eqb Z.leb (fun v => (v <? 0)%Z) Z.of_nat argsort c cs RMissing (Val (DStr "x")) (Some (ByCodes by_)) None PFirst None None false false = Ok (r, c') /\
  exists k first co co', first_of 0%Z 0%Z by_ first /\ k = 0 /\ In ("x", co) cs /\ In ("x", co') c' /\ co_at 0%Z co' (fun _ => k) <> co_at 0%Z co (fun _ => first).
Proof.
  exists argsort_reversing, cxa, exc, [0; 0; 0]%Z.
  assert (E : reads (cxc_reduce 0%Z KK PP Z.eqb Z.leb (fun v => (v <? 0)%Z) Z.of_nat argsort_reversing cxa exc RMissing (Val (DStr "x")) (Some (ByCodes [0; 0; 0]%Z)) None PFirst None None false false)
    [("x", Co ["x"] (Grid [1] [30]%Z)); ("lab", Co ["x"] (Grid [1] [7]%Z)); run] = true) by (vm_compute; reflexivity).
  destruct (cxc_reduce _ _ _ _ _ _ _ _ _ _ _ _ _ _ _ _ _ _ _) as [[r cs']|e]; [|discriminate E]. cbn [reads] in E. exists r, cs'. split; [apply argsort_reversing_ok|]. split; [apply cxa_holds|]. split; [exact exc_of|]. split; [reflexivity|].
  unfold coeqb in E. destruct (list_eq_dec _ _ _) as [Q|]; [|discriminate E]. destruct cs' as [|[n c'] cs']; [discriminate Q|]. cbn [map fst snd] in Q. destruct c' as [ds [sh dt]]. cbn in Q. injection Q as -> -> -> -> _.
  exists 0, 0, (Co ["x"] (Grid [3] [10; 20; 30]%Z)), (Co ["x"] (Grid [1] [30]%Z)). split; [split; [cbn; lia|]; split; [reflexivity|intros; lia]|]. split; [reflexivity|]. split; [now left|]. split; [now left|]. cbn. discriminate.
Qed.
