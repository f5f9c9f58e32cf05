(* Concrete cases for the theorems about coordinates of several arguments (C181 to C184), and
   a claim that fails. *)
From Coq Require Import String Permutation Sorted.
From Verif Require Import Base BaseLemmas ModelPush ModelKernels ModelIndex ModelAccum ModelAxes ModelState ModelSelect ModelParams ModelNd ModelWrap ModelLabel ModelOut ModelMethods ModelConstruct ModelMethodsX ModelShape ModelCoords ModelCoordsPush
  Spec SpecAxes SpecNd SpecIndex PropLabelled PropNd SpecLabel SpecLabelTwo PropKernels PropLabelReduce Laws ProofAxes ProofArrays ProofNd PropParams ProofIndex ProofLabels PropIndex ProofLabel ProofLabelMany PropLabel PropLabelTwo
  Checks PropConstructCheck PropMethodsX PropMethodsXReduce PropMethodsXCheck PropLabelCheck SpecCoords PropCoords PropCoordsReduce PropCoordsCheck PropCoordsPush.
Local Open Scope string_scope.
Local Open Scope list_scope.

Local Notation KK := (pusher1 5 2).
Local Notation PP := (packer1 2).
Local Notation p1 := (params_for ["mom"]).
Local Notation co ds sh l := (Co ds (Grid sh l%Z)).
(* the same labels of x; another run; labels along x called day *)
Definition exd : coords Z := [("x", co ["x"] [3] [10; 20; 30]); ("lab", co ["x"] [3] [7; 5; 7]); ("run", co [] [] [5]); ("day", co ["x"] [3] [1; 2; 3])].
(* a run for each x, which is the same everywhere *)
Definition exe : coords Z := [("run", co ["x"] [3] [4; 4; 4])].
(* other labels of x *)
Definition exf : coords Z := [("x", co ["x"] [3] [10; 20; 31])].
Definition exsz (n : sname) : nat := 3.
Lemma zeqb_eq (a b : Z) : Z.eqb a b = true <-> a = b.
Proof. apply Z.eqb_eq. Qed.
Definition once_b (l : list sname) : bool := if list_eq_dec string_dec (nodup string_dec l) l then true else false.
Lemma once_by l : once_b l = true -> NoDup l.
Proof. unfold once_b. destruct (list_eq_dec string_dec (nodup string_dec l) l) as [E|]; [|discriminate]. intros _. rewrite <- E. apply NoDup_nodup. Qed.
Definition sized_b (sz : sname -> nat) (l : list (coords Z)) : bool :=
  forallb (fun cs => once_b (map fst cs) && forallb (fun c : sname * coord Z => once_b (co_dims (snd c)) && if list_eq_dec Nat.eq_dec (gshape (co_val (snd c))) (map sz (co_dims (snd c))) then true else false) cs)%bool l.
Lemma sized_by sz l : sized_b sz l = true -> sized sz l.
Proof.
  intros H. unfold sized_b in H. rewrite forallb_forall in H. split.
  - intros cs Hc. specialize (H cs Hc). apply andb_true_iff in H. now apply once_by.
  - intros n c (cs & Hc & Hn). specialize (H cs Hc). apply andb_true_iff in H. destruct H as [_ H]. rewrite forallb_forall in H. specialize (H _ Hn). apply andb_true_iff in H. cbn [snd] in H. destruct H as [H1 H2].
    split; [now apply once_by|]. destruct (list_eq_dec Nat.eq_dec _ _) as [E|]; [exact E|discriminate H2].
Qed.
Ltac indices := intros n a b (c1 & H1 & Ha) (c2 & H2 & Hb) Da Db; cbn in H1, H2;
  repeat match goal with H : _ \/ _ |- _ => destruct H as [H|H] | H : False |- _ => destruct H end; subst; cbn in Ha, Hb;
  repeat match goal with H : _ \/ _ |- _ => destruct H as [H|H] | H : False |- _ => destruct H end; inversion Ha; inversion Hb; subst; cbn in *; congruence.
Lemma ex_differ : labels_differ [exc; exf].
Proof.
  exists "x", (co ["x"] [3] [10; 20; 30]), (co ["x"] [3] [10; 20; 31]). split; [exists exc; split; [now left|now left]|]. split; [exists exf; split; [right; now left|now left]|]. split; [reflexivity|]. split; [reflexivity|]. cbn. intros Q. discriminate Q.
Qed.
Local Notation w1 := (Plain (Tensor [] (lz [1]%Z)), @nil (sname * coord Z)).
Local Notation lab3 l := (XA ["x"] (Tensor [3] (lz l%Z))).
Local Notation smp := (XA ["x"; "s"] (Tensor [3; 2] (lz [1; 2; 3; 4; 5; 6]%Z))).
Local Notation push c cs d := (cxc_push_data 0%Z Z.eqb KK PP false c cs d None).
Local Notation xlab := ("x", co ["x"] [3] [10; 20; 30]).
Local Notation llab := ("lab", co ["x"] [3] [7; 5; 7]).
Local Notation dlab := ("day", co ["x"] [3] [1; 2; 3]).
Local Notation rlab := ("run", co [] [] [4]).
(* C181, C182 *)
Example push_data_coords_ex : sized exsz [exc; exd] /\ same_indices [exc; exd] /\ sized exsz [exc; exe] /\ same_indices [exc; exe] /\ sized exsz [exc; exf] /\ labels_differ [exc; exf] /\
  reads (push cxa exc (Labelled (cx_obj cxa), exd)) [xlab; llab; dlab] = true /\
  reads (push cxa exc (Labelled (cx_obj cxa), exe)) [xlab; llab; ("run", co ["x"] [3] [4; 4; 4])] = true /\
  reads (push cxa exc (Plain (Tensor [3] (lz [1; 2; 3]%Z)), [])) exc = true /\
  push cxa exc (Labelled (cx_obj cxa), exf) = Raise EValue.
Proof.
  split; [apply sized_by; vm_compute; reflexivity|]. split; [indices|]. split; [apply sized_by; vm_compute; reflexivity|]. split; [indices|]. split; [apply sized_by; vm_compute; reflexivity|]. split; [exact ex_differ|].
  repeat split; vm_compute; reflexivity.
Qed.
Local Notation zs := (XA ["s"; "mom"; "x"] (Tensor [2; 3; 3] (lz [1; 2; 4; 1; 2; 3; 2; 2; 2; 1; 1; 1; 2; 2; 2; 3; 3; 3]%Z))).
Definition exs : coords Z := [("s", co ["s"] [2] [8; 9]); ("late", co ["s"; "x"] [2; 3] [0; 0; 0; 1; 1; 1]); ("day", co ["x"] [3] [1; 2; 3])].
Definition exsz' (n : sname) : nat := if String.eqb n "s" then 2 else 3.
(* C182 *)
Example push_datas_coords_ex : cx_params cxa = params_for ["mom"] /\ NoDup (x_dims zs) /\ ~ In "s" ["mom"] /\ chooses 1 Missing (Val "s") "s" zs /\ sized exsz' [exc; exs] /\ same_indices [exc; exs] /\
  reads (cxc_push_datas 0%Z Z.eqb KK PP false cxa exc Missing (Val "s") None (Labelled zs, exs)) [xlab; llab; rlab; dlab] = true /\
  cxc_push_datas 0%Z Z.eqb KK PP false cxa exc Missing (Val "s") None (Labelled zs, exf) = Raise EValue.
Proof.
  split; [reflexivity|]. split; [cbn; repeat (apply NoDup_cons; [cbn; intuition discriminate|]); apply NoDup_nil|]. split; [cbn; intuition discriminate|]. split; [left; cbn; auto|]. split; [apply sized_by; vm_compute; reflexivity|]. split; [indices|]. split; vm_compute; reflexivity.
Qed.
Example push_vals_coords_ex : sized exsz' [exc; exs; []] /\ same_indices [exc; exs; []] /\ chooses 0 Missing (Val "s") "s" smp /\
  reads (cxc_push_vals 0%Z Z.eqb KK PP reader1 false cxa exc Missing (Val "s") (Labelled smp, exs) w1 []) [xlab; llab; rlab; dlab] = true /\
  reads (cxc_push_val 0%Z Z.eqb KK PP reader1 false cxa exc (Labelled (lab3 [1; 2; 3]), exd) w1 []) [xlab; llab; dlab] = true /\
  cxc_push_val 0%Z Z.eqb KK PP reader1 false cxa exc (Labelled (lab3 [1; 2; 3]), exd) (Labelled (lab3 [1; 2; 3]), exf) [] = Raise EValue /\
  cxc_push_vals 0%Z Z.eqb KK PP reader1 false cxa exc Missing (Val "s") (Labelled smp, exs) (Labelled smp, exc) [] <> Raise EValue /\
  cxc_push_vals 0%Z Z.eqb KK PP reader1 false cxa exc Missing (Val "s") (Labelled smp, exs) (Labelled smp, exf) [] = Raise EValue /\
  greads (xc_reduce_vals 0%Z Z.eqb KK PP reader1 p1 Missing (Val "s") smp exs (Labelled smp, exd) []) [dlab; xlab; llab; ("run", co [] [] [5])] = true /\
  xc_reduce_vals 0%Z Z.eqb KK PP reader1 p1 Missing (Val "s") smp exf (Labelled smp, exd) [] = Raise EValue.
Proof.
  split; [apply sized_by; vm_compute; reflexivity|]. split; [indices|]. split; [left; cbn; auto|]. repeat split; try (vm_compute; reflexivity). vm_compute. intros Q. discriminate Q.
Qed.
Example push_arrays_coords_ex : sized exsz [exc] /\ (forall n q, In (n, q) exc -> ~ In "_dummy123" (co_dims q)) /\ ~ In "_dummy123" (map fst exc) /\
  reads (cxc_push_datas 0%Z Z.eqb KK PP false cxa exc (Val (AInt 0)) Missing None (Plain (Tensor [2; 3] (lz [1; 2; 3; 4; 5; 6]%Z)), [])) exc = true.
Proof.
  split; [apply sized_by; vm_compute; reflexivity|]. split; [intros n q H; cbn in H; destruct H as [H|[H|[H|[]]]]; injection H as <- <-; cbn; intuition discriminate|]. split; [cbn; intuition discriminate|]. vm_compute. reflexivity.
Qed.
(* C183 *)
Example sum_coords_ex : sized exsz [exe; exd] /\ reads (cxc_add 0%Z Z.eqb KK PP false cxa exe cxa exc) [("run", co ["x"] [3] [4; 4; 4]); xlab; llab] = true /\
  reads (cxc_add 0%Z Z.eqb KK PP false cxa exc cxa exe) [xlab; llab; ("run", co ["x"] [3] [4; 4; 4])] = true /\
  reads (cxc_add 0%Z Z.eqb KK PP false cxa exc cxa exd) [xlab; llab; dlab] = true /\ reads (cxc_add 0%Z Z.eqb KK PP false cxa exd cxa exc) [xlab; llab; dlab] = true.
Proof. split; [apply sized_by; vm_compute; reflexivity|]. repeat split; vm_compute; reflexivity. Qed.
Example merged_fit_ex : Forall (coords_of (cx_obj cxa)) [exc; exd].
Proof.
  apply Forall_cons; [exact exc_of|]. apply Forall_cons; [|apply Forall_nil]. split; [now apply once_by|].
  intros n c H. cbn in H. destruct H as [H|[H|[H|[H|[]]]]]; injection H as <- <-; cbn [co_dims co_val gshape]; (split; [now apply once_by|]); (split; [intros m Hm; cbn in Hm |- *; tauto|]); (split; [reflexivity|]); intros Q; cbn in Q; destruct Q as [Q|[Q|[]]]; congruence.
Qed.
(* C184: push_data keeps the coordinates of the object *)
Theorem push_keeps_coords_refuted : exists c cs data c' cs', sized exsz [cs; coords_given data] /\ same_indices [cs; coords_given data] /\ cxc_push_data 0%Z Z.eqb KK PP false c cs data None = Ok (c', cs') /\
  (exists n q, In (n, q) cs /\ ~ In n (map fst cs')) /\ (exists n q, In (n, q) cs' /\ ~ In n (map fst cs)).
Proof.
  destruct (push cxa exc (Labelled (cx_obj cxa), exd)) as [[c' cs']|] eqn:E.
  - exists cxa, exc, (Labelled (cx_obj cxa), exd), c', cs'. split; [apply sized_by; vm_compute; reflexivity|]. split; [cbn [coords_given]; indices|]. split; [exact E|].
    assert (Q : reads (push cxa exc (Labelled (cx_obj cxa), exd)) [xlab; llab; dlab] = true) by (vm_compute; reflexivity). rewrite E in Q. cbn [reads] in Q. unfold coeqb in Q. destruct (list_eq_dec _ _ _) as [Ql|] in Q; [|discriminate Q].
    assert (Qn : map fst cs' = ["x"; "lab"; "day"]). { apply (f_equal (map fst)) in Ql. rewrite !map_map in Ql. exact Ql. }
    split; [exists "run", (co [] [] [4]); split; [cbn; auto|rewrite Qn; cbn; intuition discriminate]|]. assert (Hd : In "day" (map fst cs')) by (rewrite Qn; cbn; auto). apply in_map_iff in Hd. destruct Hd as ([n q] & Hn & Hq). cbn in Hn. subst n. exists "day", q. split; [exact Hq|]. cbn. intuition discriminate.
  - exfalso. assert (Q : reads (push cxa exc (Labelled (cx_obj cxa), exd)) [xlab; llab; dlab] = true) by (vm_compute; reflexivity). rewrite E in Q. discriminate Q.
Qed.
Definition cxb : cmdata := CX (XA ["mom"; "x"] (Tensor [3; 3] (lz [5; 5; 5; 1; 2; 3; 2; 2; 2]%Z))) p1.
Example sums_coords_ex : sized exsz [exc; exd] /\ same_indices [exc; exd] /\ labels_differ [exc; exf] /\ cx_check_other cxb cxa = Ok tt /\
  reads (cxc_sub 0%Z Z.eqb KK PP false cxb exc cxa exd) [xlab; llab; dlab] = true /\ cxc_sub 0%Z Z.eqb KK PP false cxb exc cxa exf = Raise EValue.
Proof. split; [apply sized_by; vm_compute; reflexivity|]. split; [indices|]. split; [exact ex_differ|]. repeat split; vm_compute; reflexivity. Qed.
