(* Statistics and multiples of objects, with a DataArray or a Dataset (C188 to C190). *)
From Coq Require Import String Permutation.
From Verif Require Import Base BaseLemmas ModelConstruct ModelPush ModelKernels ModelIndex ModelAxes ModelState ModelParams ModelNd ModelWrap ModelLabel ModelMoments ModelMomentsX ModelDataset ModelMethodsS ModelMomentsS
  Spec SpecAxes SpecNd PropLabelled SpecLabel SpecMethodsX SpecMoments SpecMomentsX SpecDataset
  ProofAxes ProofArrays ProofNd PropParams ProofLabel ProofLabelMany PropLabelJack ProofMethodsX ProofMoments PropMoments PropSelect PropAssign ProofMomentsX PropMomentsX PropSelectX PropAssignX PropStatsX ProofDataset PropDataset PropMomentsS.
Local Open Scope string_scope.
Local Open Scope nat_scope.

(* y has no dimensions but those of x, and their sizes *)
Definition no_new_dims (x y : xarr) : Prop := x_ok y /\ incl (x_dims y) (x_dims x) /\ forall n, In n (x_dims y) -> dim_size y n = dim_size x n.
(* moments f with the weight k times as large *)
Definition weight_times (k : Qc) (f : list nat -> Qc) (m : list nat) : Qc := if forallb (Nat.eqb 0) m then (f m * k)%Qc else f m.
(* y holds the moments of x with the weight k times as large, moment dimensions last *)
Definition is_multiple (md : list sname) (k : Qc) (x y : xarr) : Prop :=
  x_ok y /\ x_dims y = (except_name (x_dims x) md ++ md)%list /\ (forall n, In n (x_dims x) -> dim_size y n = dim_size x n) /\
  forall env, x_inside x env -> x_at y env = weight_times k (named_moment x md env) (map env md).

(* ---- results that go into one Dataset ------------------------------------------------------ *)

Lemma copied_sizes x n k : x_ok x -> lookup n (combine (lg_dims (copied (fun q : Qc => q) x)) (gshape (lg_val (copied (fun q => q) x)))) = Some k -> In n (x_dims x) /\ k = dim_size x n.
Proof.
  intros Hx H. cbn [copied lg_dims lg_val gshape] in H. rewrite (shape_named _ Hx) in H. apply lookup_In in H. split; [now apply in_combine_l in H|].
  revert H. generalize (dim_size x) as f. intros f. induction (x_dims x) as [|m t IH]; [intros []|]. cbn. intros [[= -> <-]|H]; [reflexivity|auto].
Qed.
Lemma each_no_new (f : sname * xarr -> res (lgrid Qc)) s r : set_ok s -> (forall v, In v s -> exists y, f v = Ok (copied (fun q => q) y) /\ no_new_dims (snd v) y) -> each_variable f s r ->
  exists l, r = Ok l /\ set_ok (to_xset l) /\ map fst (to_xset l) = map fst s /\
    Forall2 (fun v w => fst w = fst v /\ f v = Ok (copied (fun q => q) (snd w)) /\ no_new_dims (snd v) (snd w)) s (to_xset l).
Proof.
  intros (Ns & Os & As) F E. destruct r as [l|e].
  - exists l. split; [reflexivity|]. destruct E as [E _].
    assert (F2 : Forall2 (fun v w => fst w = fst v /\ f v = Ok (copied (fun q => q) (snd w)) /\ no_new_dims (snd v) (snd w)) s (to_xset l)).
    { clear Ns Os As. induction E as [|v w s l [E1 E2] E IH]; [constructor|]. cbn [to_xset map]. constructor; [|apply IH; intros; apply F; now right]. cbn [fst snd].
      destruct (F v (or_introl eq_refl)) as (y & Ey & Ny). rewrite E2 in Ey. injection Ey as Ey. rewrite Ey in E2 |- *. rewrite to_xarr_copied. auto. }
    assert (Nm : map fst (to_xset l) = map fst s) by (clear -F2; induction F2 as [|v w s l' (E & _) F2 IH]; [reflexivity|]; cbn [map]; now rewrite E, IH).
    split; [|split; [exact Nm|exact F2]]. split; [now rewrite Nm|].
    assert (B : forall w, In w (to_xset l) -> exists v, In v s /\ no_new_dims (snd v) (snd w)).
    { clear -F2. induction F2 as [|v w s l' (_ & _ & N) F2 IH]; [intros ? []|]. intros u [<-|Iu]; [exists v; split; [now left|exact N]|]. destruct (IH u Iu) as (v' & I & N'). exists v'. split; [now right|exact N']. }
    split; [intros w Iw; destruct (B w Iw) as (v & _ & N); apply N|]. intros w w' Iw Iw' n Hn Hn'. destruct (B w Iw) as (v & Iv & _ & I1 & S1), (B w' Iw') as (v' & Iv' & _ & I2 & S2). rewrite S1, S2 by assumption. apply As; auto.
  - exfalso. destruct E as [(v & Iv & E)|(_ & v & w & g & h & Iv & Iw & Eg & Eh & n & a & b & Ea & Eb & D)].
    + destruct (F v Iv) as (y & Ey & _). congruence.
    + destruct (F v Iv) as (y & Ey & X1 & I1 & S1), (F w Iw) as (z & Ez & X2 & I2 & S2). rewrite Eg in Ey. injection Ey as ->. rewrite Eh in Ez. injection Ez as ->.
      apply copied_sizes in Ea, Eb; [|assumption..]. destruct Ea as [Ia ->], Eb as [Ib ->]. apply D. rewrite S1, S2 by assumption. apply (As v w); auto.
Qed.

(* ---- multiples of an array ------------------------------------------------------------------- *)

Lemma x_times_ok k x : x_ok x -> x_ok (x_times k x).
Proof. intros (T & N & L). unfold x_ok, x_times, tensor_ok, x_shape in *. cbn. rewrite map_length. auto. Qed.
Lemma x_times_at k x env : x_at (x_times k x) env = (x_at x env * k)%Qc.
Proof.
  unfold x_at, x_times, tget. cbn [x_dims x_val tshape tdata]. change (x_shape x) with (tshape (x_val x)). rewrite <- (map_nth (fun q => (q * k)%Qc)). f_equal. ring.
Qed.
Lemma x_times_size k x n : dim_size (x_times k x) n = dim_size x n.
Proof. reflexivity. Qed.

Section Multiple.
  Variables (x : xarr) (md : list sname) (k : Qc).
  Hypothesis HM : has_moments md x.
  Hypothesis Pos : Forall (lt 0) (map (dim_size x) md).

  Lemma weight_name : exists at_, In ("weight", ([], at_)) (SpecMoments.moment_names true (map (dim_size x) md)) /\ all_exist (map (dim_size x) md) [] at_ /\ forall q, at_ q = map (fun _ => 0) md.
  Proof.
    destruct HM as (_ & _ & L & _). destruct md as [|a [|b [|? ?]]]; cbn [List.length] in L; try lia; cbn [map] in *.
    - exists (fun _ => [0]). split; [cbn; tauto|]. split; [|reflexivity]. intros q _. inversion_clear Pos. repeat constructor; assumption.
    - exists (fun _ => [0; 0]). split; [cbn; tauto|]. split; [|reflexivity]. intros q _. inversion_clear Pos as [|? ? P1 P2]. inversion_clear P2. repeat constructor; assumption.
  Qed.
  Lemma weight_of : exists w, x_select_moment (params_for md) "weight" true "variable" None x = Ok w /\ x_ok w /\ x_dims w = except_name (x_dims x) md /\
    (forall n, In n (x_dims w) -> dim_size w n = dim_size x n) /\ forall env, inside_names (dim_size x) (x_dims w) env -> x_at w env = named_moment x md env (map (fun _ => 0) md).
  Proof.
    destruct weight_name as (at_ & I & A & Ea).
    destruct (select_moment_named x md HM "weight" true "variable" None [] at_ I) as (w & Ew & Ow & Dw & Sw & Aw); try assumption; [discriminate|intros [[O|[O|[]]] _]; discriminate O|].
    assert (Q : selection_dims md true "variable" "weight" = []) by (unfold selection_dims; cbn; destruct md as [|? [|? [|]]]; reflexivity).
    rewrite Q in Dw, Sw, Aw. rewrite app_nil_r in Dw, Sw, Aw. exists w. rewrite Dw. split; [exact Ew|]. split; [exact Ow|]. split; [reflexivity|]. split; [exact Sw|].
    intros env He. rewrite (Aw env He). cbn [map]. now rewrite Ea.
  Qed.
  Theorem assign_multiple w : x_select_moment (params_for md) "weight" true "variable" None x = Ok w ->
    exists y, x_assign_moment (params_for md) [("weight", Labelled (x_times k w))] true None x = Ok y /\ is_multiple md k x y.
  Proof.
    intros E. destruct weight_of as (w' & E' & Ow & Dw & Sw & Aw). rewrite E in E'. injection E' as <-. destruct weight_name as (at_ & I & A & Ea). pose proof HM as (Hx & Nm & Lm & Im).
    assert (Q : selection_dims md true "variable" "weight" = []) by (unfold selection_dims; cbn; destruct md as [|? [|? [|]]]; reflexivity).
    destruct (assign_moment_named x md HM true None "variable" [("weight", Labelled (x_times k w))] Pos) as (y & Ey & Oy & Dy & Sy & Ay).
    - constructor; [|constructor]. exists [], at_. cbn [fst snd]. split; [exact I|]. split; [exact A|]. split; [|intros [[O|[O|[]]] _]; discriminate O].
      cbn [value_suits lines_up]. rewrite Q. split; [now apply x_times_ok|]. split; [intros ? []|]. split; [rewrite app_nil_r; cbn [x_times x_dims]; rewrite Dw; apply incl_refl|]. split; [|reflexivity].
      intros n Hn _. rewrite x_times_size. now apply Sw.
    - exists y. split; [exact Ey|]. split; [exact Oy|]. split; [exact Dy|].
      assert (Iy : forall n, In n (x_dims x) <-> In n (except_name (x_dims x) md ++ md)) by (intros n; symmetry; now apply xm_In).
      split; [intros n Hn; apply Sy; now apply Iy|]. intros env He.
      assert (He' : inside_names (dim_size x) (except_name (x_dims x) md ++ md) env) by (intros n Hn; apply He; now apply Iy).
      assert (V : valid (map (dim_size x) md) (map env md)) by (apply inside_names_valid; intros n Hn; apply He; now apply Im).
      rewrite (Ay env He'). cbn [map fst snd]. rewrite set_weight; [|now rewrite map_length|exact V]. unfold weight_times. destruct (forallb (Nat.eqb 0) (map env md)) eqn:Z; [|reflexivity].
      cbn [value_for]. rewrite Q. rewrite x_times_at. f_equal.
      assert (Z' : map env md = map (fun _ => 0) md) by (clear -Z; induction md as [|a l IH]; [reflexivity|]; cbn [map forallb] in *; apply andb_prop in Z; destruct Z as [Z1 Z2]; apply Nat.eqb_eq in Z1; rewrite <- Z1; f_equal; auto).
      rewrite Z', <- Aw; [reflexivity|]. rewrite Dw. intros n Hn. apply He'. apply in_or_app. now left.
  Qed.
  Theorem mul_named : exists y, cx_mul (CX x (params_for md)) k = Ok (CX y (params_for md)) /\ is_multiple md k x y.
  Proof.
    destruct weight_of as (w & Ew & _). destruct (assign_multiple w Ew) as (y & Ey & My). exists y. split; [|exact My].
    unfold cx_mul, cx_weight, cx_select_moment, cx_assign_moment. cbn [cx_obj cx_params]. rewrite Ew. cbn [rbind]. rewrite Ey. reflexivity.
  Qed.
End Multiple.

Lemma no_new_refl x : x_ok x -> no_new_dims x x.
Proof. intros H. split; [exact H|]. split; [apply incl_refl|reflexivity]. Qed.
Lemma multiple_no_new md k x y : has_moments md x -> is_multiple md k x y -> no_new_dims x y.
Proof.
  intros (Hx & Nm & Lm & Im) (Oy & Dy & Sy & _). split; [exact Oy|]. assert (I : incl (x_dims y) (x_dims x)) by (rewrite Dy; intros n Hn; apply in_app_or in Hn; destruct Hn as [Hn|Hn]; [now apply except_name_In in Hn|now apply Im]).
  split; [exact I|]. intros n Hn. apply Sy. now apply I.
Qed.

Lemma moment_here x md env : NoDup md -> named_moment x md env (map env md) = x_at x env.
Proof.
  intros Nm. unfold named_moment, x_at. f_equal. apply map_ext. intros n. destruct (in_dec string_dec n md) as [I|I]; [now apply name_bind_map|now apply name_bind_out].
Qed.
(* c * 1 has the moments of c; (c * a) * b is c * (a b) *)
Theorem multiples md x : has_moments md x ->
  (forall y, is_multiple md 1%Qc x y -> x_same x y) /\
  (forall a b y z, is_multiple md a x y -> is_multiple md b y z -> is_multiple md (a * b)%Qc x z).
Proof.
  intros HM. pose proof HM as (Hx & Nm & Lm & Im). assert (Iy : forall n, In n (x_dims x) <-> In n (except_name (x_dims x) md ++ md)) by (intros n; symmetry; now apply xm_In). split.
  - intros y (Oy & Dy & Sy & Ay). split; [intros n; rewrite Dy; apply Iy|]. split; [intros n Hn; symmetry; now apply Sy|]. intros env He. rewrite (Ay env He). unfold weight_times. rewrite moment_here by exact Nm. destruct (forallb _ _); [ring|reflexivity].
  - intros a b y z (Oy & Dy & Sy & Ay) (Oz & Dz & Sz & Az).
    assert (Yx : forall n, In n (x_dims y) <-> In n (x_dims x)) by (intros n; rewrite Dy; symmetry; apply Iy).
    split; [exact Oz|]. split; [|split].
    + rewrite Dz, Dy. f_equal. unfold except at 1. rewrite filter_app. rewrite (filter_all _ (except_name (x_dims x) md)).
      * rewrite (filter_none _ md); [apply app_nil_r|]. intros n Hn. destruct (in_dec string_dec n md); [reflexivity|contradiction].
      * intros n Hn. apply except_name_In in Hn. destruct (in_dec string_dec n md); [tauto|reflexivity].
    + intros n Hn. rewrite Sz by now apply Yx. now apply Sy.
    + intros env He. assert (He' : x_inside y env) by (intros n Hn; apply Yx in Hn; rewrite (Sy n Hn); now apply He). rewrite (Az env He'). unfold weight_times. rewrite !moment_here by exact Nm. rewrite (Ay env He). unfold weight_times. rewrite moment_here by exact Nm. destruct (forallb _ _); [ring|reflexivity].
Qed.

(* ---- objects with a Dataset -------------------------------------------------------------------- *)

Section Set_.
  Variables (s : xset) (md : list sname).
  Hypothesis Hs : set_ok s.
  Hypothesis Hm : SpecDataset.moment_names md.
  Let c := CS s (params_for md).
  Let P := params_for md.

  Theorem stats_set :
    each_with_moments md (fun x => cx_weight (CX x P)) s (cs_weight c) /\
    (forall squeeze, each_with_moments md (fun x => cx_mean (CX x P) squeeze) s (cs_mean c squeeze)) /\
    (forall squeeze, each_with_moments md (fun x => cx_var (CX x P) squeeze) s (cs_var c squeeze)) /\
    each_with_moments md (fun x => cx_cov (CX x P)) s (cs_cov c) /\
    (forall nmax, each_with_moments md (fun x => x_moments_type nmax "raw" P false false x) s (cs_to_raw nmax c None)).
  Proof.
    unfold c, P. split; [now apply select_moment_set|]. split; [intros; now apply select_moment_set|]. split; [intros; now apply select_moment_set|]. split; [now apply select_moment_set|].
    intros nmax. unfold cs_to_raw. cbn [cs_params cs_obj]. pose proof (moments_type_set s md Hs Hm nmax "raw" false false) as E. destruct (ds_moments_type _ _ _ _ _ _); exact E.
  Qed.
  Theorem cmom_set : each_with_moments md (fun x => cx_cmom (CX x P)) s (cs_cmom c).
  Proof.
    pose proof (assign_moment_set s md Hs Hm [("weight", DArr (Plain (number 1))); ("ave", DArr (Plain (number 0)))] true None) as E.
    unfold each_with_moments, cs_cmom, c, P. cbn [cs_params cs_obj]. eapply each_ext; [|apply E].
    - intros v Iv. cbn [forallb]. unfold value_has. cbn [snd its_part]. rewrite andb_true_r. destruct (has_names md (snd v)); reflexivity.
    - intros nv [<-|[<-|[]]]; exact I.
    - intros a b [<-|[<-|[]]] _ ? ? [].
  Qed.

  Hypothesis Pos : forall v, In v s -> has_names md (snd v) = true -> Forall (lt 0) (map (dim_size (snd v)) md).
  Lemma var_moments v : In v s -> has_names md (snd v) = true -> has_moments md (snd v).
  Proof. intros Iv Hv. split; [now apply Hs|]. split; [apply Hm|]. split; [apply Hm|now apply has_names_In]. Qed.
  Theorem mul_set k : exists t, cs_mul c k = Ok (CS t P) /\ set_ok t /\
    Forall2 (fun v w => fst w = fst v /\ if has_names md (snd v) then is_multiple md k (snd v) (snd w) else snd w = snd v) s t.
  Proof.
    unfold cs_mul, cs_weight, cs_select_moment, cs_assign_moment, c, P. cbn [cs_obj cs_params].
    pose proof (select_moment_set s md Hs Hm "weight" true "variable" None I) as E. apply each_no_new in E; [|exact Hs|].
    2: { intros v Iv. destruct (has_names md (snd v)) eqn:Hv; [|exists (snd v); split; [reflexivity|apply no_new_refl; now apply Hs]].
         destruct (weight_of (snd v) md (var_moments v Iv Hv) (Pos v Iv Hv)) as (w & Ew & Ow & Dw & Sw & _). rewrite Ew. exists w. split; [reflexivity|]. split; [exact Ow|]. split; [|exact Sw]. rewrite Dw. intros n Hn. now apply except_name_In in Hn. }
    destruct E as (l & El & Ol & Nl & Fl). rewrite El. cbn [rbind]. set (u := map (fun v => (fst v, x_times k (snd v))) (to_xset l)).
    assert (Nu : map fst u = map fst s) by (unfold u; rewrite map_map; cbn [fst]; exact Nl).
    assert (Bk : forall w, In w (to_xset l) -> exists v, In v s /\ no_new_dims (snd v) (snd w)).
    { clear -Fl. induction Fl as [|v w s l' (_ & _ & N) F2 IH]; [intros ? []|]. intros w0 [<-|Iu]; [exists v; split; [now left|exact N]|]. destruct (IH w0 Iu) as (v' & I' & N'). exists v'. split; [now right|exact N']. }
    assert (Ou : set_ok u).
    { destruct Ol as (_ & O2 & O3). split; [rewrite Nu; apply Hs|]. unfold u. split; [intros v Iv; apply in_map_iff in Iv; destruct Iv as (w & <- & Iw); cbn [snd]; apply x_times_ok; now apply O2|].
      intros v v' Iv Iv'. apply in_map_iff in Iv, Iv'. destruct Iv as (w & <- & Iw), Iv' as (w' & <- & Iw'). cbn [snd]. exact (O3 w w' Iw Iw'). }
    assert (Fu : fits s (DSet u)).
    { split; [exact Ou|]. split; [intros n; now rewrite Nu|]. intros v w Iv Iw n Hn Hn'. unfold u in Iw. apply in_map_iff in Iw. destruct Iw as (w' & <- & Iw). cbn [snd x_times x_dims] in Hn'. cbn [snd]. rewrite x_times_size.
      destruct (Bk w' Iw) as (v' & Iv' & _ & I1 & S1). rewrite S1 by exact Hn'. destruct Hs as (_ & _ & As). apply (As v v' Iv Iv'); auto. }
    pose proof (assign_moment_set s md Hs Hm [("weight", DSet u)] true None) as E. cbn [map snd] in E.
    assert (Part : forall v w, In v s -> In w (to_xset l) -> fst w = fst v -> its_part (fst v) (DSet u) = Labelled (x_times k (snd w))).
    { intros v w Iv Iw En. cbn [its_part]. rewrite <- En. change (fst w) with (fst (fst w, x_times k (snd w))). rewrite get_var_In; [reflexivity|apply Ou|]. unfold u. apply in_map_iff. now exists w. }
    assert (Here : forall v, In v s -> exists w, In w (to_xset l) /\ fst w = fst v /\ rmap (copied (fun q => q)) (if has_names md (snd v) then x_select_moment (params_for md) "weight" true "variable" None (snd v) else Ok (snd v)) = Ok (copied (fun q => q) (snd w))).
    { clear -Fl. induction Fl as [|v w s l' (E1 & E2 & _) F2 IH]; [intros ? []|]. intros v0 [<-|Iv]; [exists w; split; [now left|auto]|]. destruct (IH v0 Iv) as (w' & I' & N'). exists w'. split; [now right|exact N']. }
    assert (Inj : forall y z : xarr, copied (fun q : Qc => q) y = copied (fun q => q) z -> y = z) by (intros y z Q; rewrite <- (to_xarr_copied y), <- (to_xarr_copied z); now rewrite Q).
    assert (Each : forall v, In v s -> exists y, rmap (copied (fun q : Qc => q))
        (if (has_names md (snd v) && forallb (value_has md true None (fst v)) [("weight", DSet u)])%bool
         then x_assign_moment (params_for md) [("weight", its_part (fst v) (DSet u))] true None (snd v) else Ok (snd v)) = Ok (copied (fun q => q) y) /\
        (if has_names md (snd v) then is_multiple md k (snd v) y else y = snd v) /\ no_new_dims (snd v) y).
    { intros v Iv. destruct (Here v Iv) as (w & Iw & En & Ew). cbn [forallb]. unfold value_has at 1. cbn [fst snd]. rewrite (Part v w Iv Iw En).
      change (wanted_dims md true None "weight") with (@nil sname). change (has_names [] (x_times k (snd w))) with true. cbn [andb]. rewrite andb_true_r.
      destruct (has_names md (snd v)) eqn:Hv; [|exists (snd v); split; [reflexivity|]; split; [reflexivity|apply no_new_refl; now apply Hs]].
      destruct (weight_of (snd v) md (var_moments v Iv Hv) (Pos v Iv Hv)) as (w0 & Ew0 & _). rewrite Ew0 in Ew. unfold rmap in Ew. cbn [rbind] in Ew. injection Ew as Ew. assert (Ew' : w0 = snd w) by (apply Inj; unfold copied; congruence). subst w0.
      destruct (assign_multiple (snd v) md k (var_moments v Iv Hv) (Pos v Iv Hv) (snd w) Ew0) as (y & Ey & My). exists y. rewrite Ey. split; [reflexivity|]. split; [exact My|]. apply (multiple_no_new md k); [now apply var_moments|exact My]. }
    apply each_no_new in E; [|exact Hs|intros v Iv; destruct (Each v Iv) as (y & Ey & _ & Ny); exists y; auto|intros nv [<-|[]]; exact Fu|].
    2: { intros a b [<-|[]] [<-|[]] x y Ix Iy. cbn [arrays_of] in Ix, Iy. apply in_map_iff in Ix, Iy. destruct Ix as (v & <- & Iv), Iy as (w & <- & Iw). destruct Ou as (_ & _ & As). now apply As. }
    destruct E as (t & Et & Ot & Nt & Ft). exists (to_xset t). split; [|split; [exact Ot|]].
    - unfold cs_with, rmap. fold u. rewrite Et. reflexivity.
    - assert (Q : forall s', incl s' s -> forall t', Forall2 (fun v w => fst w = fst v /\ rmap (copied (fun q : Qc => q))
        (if (has_names md (snd v) && forallb (value_has md true None (fst v)) [("weight", DSet u)])%bool
         then x_assign_moment (params_for md) [("weight", its_part (fst v) (DSet u))] true None (snd v) else Ok (snd v)) = Ok (copied (fun q => q) (snd w)) /\ no_new_dims (snd v) (snd w)) s' t' ->
        Forall2 (fun v w => fst w = fst v /\ if has_names md (snd v) then is_multiple md k (snd v) (snd w) else snd w = snd v) s' t').
      { intros s' Is t' F2. induction F2 as [|v w s' t' (E1 & E2 & _) F2 IH]; [constructor|]. constructor; [|apply IH; intros a Ha; apply Is; now right]. split; [exact E1|].
        destruct (Each v (Is v (or_introl eq_refl))) as (y & Ey & My & _). rewrite Ey in E2. injection E2 as E2. assert (Q : y = snd w) by (apply Inj; unfold copied; congruence). now rewrite <- Q. }
      apply (Q s (incl_refl s)). exact Ft.
  Qed.

  (* nmax is the largest order in cached tables *)
  Theorem rmom_set nmax : (forall v, In v s -> has_names md (snd v) = true -> Forall (fun d => 2 <= dim_size (snd v) d <= S nmax) md) ->
    exists l, cs_rmom nmax c = Ok l /\ set_ok (to_xset l) /\
      Forall2 (fun v w => fst w = fst v /\ if has_names md (snd v) then cx_rmom nmax (CX (snd v) P) = Ok (snd w) else snd w = snd v) s (to_xset l).
  Proof.
    intros Rg. unfold cs_rmom, cs_to_raw, c, P. cbn [cs_params cs_obj].
    pose proof (moments_type_set s md Hs Hm nmax "raw" false false) as E.
    assert (Conv : forall v, In v s -> has_names md (snd v) = true -> exists y z, x_moments_type nmax "raw" (params_for md) false false (snd v) = Ok y /\ x_ok y /\ x_dims y = x_dims (snd v) /\ (forall n, In n (x_dims y) -> dim_size y n = dim_size (snd v) n) /\
        x_assign_moment (params_for md) [("weight", Plain (number 1))] true None y = Ok z /\ cx_rmom nmax (CX (snd v) (params_for md)) = Ok z /\ no_new_dims (snd v) z).
    { intros v Iv Hv. pose proof (var_moments v Iv Hv) as HM. destruct (moments_type_named nmax "raw" md (snd v) false false HM (Rg v Iv Hv)) as (y & Ey & Oy & Dy & Sy & _). cbn in Dy, Sy.
      assert (Hx : xholds (CX (snd v) (params_for md)) md).
      { destruct HM as (Hx & Nm & Lm & Im). split; [exact Hx|]. split; [exact Nm|]. split; [exact Lm|]. split; [exact Im|]. split; [|reflexivity]. eapply Forall_impl; [|exact (Rg v Iv Hv)]. cbn. tauto. }
      assert (Fit : Forall (fun d => dim_size (snd v) d <= S nmax) md) by (eapply Forall_impl; [|exact (Rg v Iv Hv)]; cbn; tauto).
      destruct (object_rmom_named (CX (snd v) (params_for md)) md Hx nmax Fit) as (z & Ez & Oz & Dz & Sz & _). cbn [cx_obj] in *. exists y, z. split; [exact Ey|]. split; [exact Oy|]. split; [exact Dy|]. split; [intros n Hn; apply Sy; now rewrite <- Dy|].
      split; [|split; [exact Ez|]].
      - unfold cx_rmom, cx_to_raw in Ez. cbn [cx_params cx_obj] in Ez. rewrite Ey in Ez. exact Ez.
      - split; [exact Oz|]. split; [|intros n Hn; apply Sz; now rewrite <- Dz]. rewrite Dz. intros n Hn. apply in_app_or in Hn. destruct Hn as [Hn|Hn]; [now apply except_name_In in Hn|now apply HM]. }
    apply each_no_new in E; [|exact Hs|].
    2: { intros v Iv. destruct (has_names md (snd v)) eqn:Hv; [|exists (snd v); split; [reflexivity|apply no_new_refl; now apply Hs]].
         destruct (Conv v Iv Hv) as (y & z & Ey & Oy & Dy & Sy & _). rewrite Ey. exists y. split; [reflexivity|]. split; [exact Oy|]. split; [rewrite Dy; apply incl_refl|exact Sy]. }
    destruct E as (l & El & Ol & Nl & Fl). rewrite El. cbn [rbind].
    assert (Inj : forall y z : xarr, copied (fun q : Qc => q) y = copied (fun q => q) z -> y = z) by (intros y z Q; rewrite <- (to_xarr_copied y), <- (to_xarr_copied z); now rewrite Q).
    assert (Back : Forall2 (fun v u => fst u = fst v /\ exists w, rmap (copied (fun q : Qc => q)) (if has_names md (snd u) then x_assign_moment (params_for md) [("weight", Plain (number 1))] true None (snd u) else Ok (snd u)) = Ok (copied (fun q => q) w) /\
        no_new_dims (snd u) w /\ if has_names md (snd v) then cx_rmom nmax (CX (snd v) (params_for md)) = Ok w else w = snd v) s (to_xset l)).
    { assert (G : forall s', incl s' s -> forall u', Forall2 (fun v w => fst w = fst v /\ rmap (copied (fun q : Qc => q)) (if has_names md (snd v) then x_moments_type nmax "raw" (params_for md) false false (snd v) else Ok (snd v)) = Ok (copied (fun q => q) (snd w)) /\ no_new_dims (snd v) (snd w)) s' u' ->
        Forall2 (fun v u => fst u = fst v /\ exists w, rmap (copied (fun q : Qc => q)) (if has_names md (snd u) then x_assign_moment (params_for md) [("weight", Plain (number 1))] true None (snd u) else Ok (snd u)) = Ok (copied (fun q => q) w) /\
          no_new_dims (snd u) w /\ if has_names md (snd v) then cx_rmom nmax (CX (snd v) (params_for md)) = Ok w else w = snd v) s' u').
      2: { apply (G s (incl_refl s)). exact Fl. }
      intros s' Is u' F2. induction F2 as [|v u s' u' (E1 & E2 & _) F2 IH]; [constructor|]. constructor; [|apply IH; intros a Ha; apply Is; now right]. split; [exact E1|]. assert (Iv : In v s) by (apply Is; now left).
      destruct (has_names md (snd v)) eqn:Hv.
      - destruct (Conv v Iv Hv) as (y & z & Ey & Oy & Dy & Sy & Ea & Er & Nz). rewrite Ey in E2. unfold rmap in E2. cbn [rbind] in E2. injection E2 as E2. assert (Q : y = snd u) by (apply Inj; unfold copied; congruence). rewrite <- Q.
        assert (Hy : has_names md y = true) by (unfold has_names; rewrite Dy; exact Hv). rewrite Hy, Ea. exists z. split; [reflexivity|]. split; [|exact Er]. destruct Nz as (Oz & Iz & Sz). split; [exact Oz|]. split; [now rewrite Dy|]. intros n Hn. rewrite Sz by exact Hn. symmetry. apply Sy. rewrite Dy. now apply Iz.
      - unfold rmap in E2. cbn [rbind] in E2. injection E2 as E2. assert (Q : snd v = snd u) by (apply Inj; unfold copied; congruence). rewrite <- Q, Hv. exists (snd v). split; [reflexivity|]. split; [apply no_new_refl; now apply Hs|reflexivity]. }
    pose proof (assign_moment_set (to_xset l) md Ol Hm [("weight", DArr (Plain (number 1)))] true None) as E. cbn [map snd] in E.
    assert (Fu : forall v, In v (to_xset l) -> exists w, rmap (copied (fun q : Qc => q)) (if has_names md (snd v) then x_assign_moment (params_for md) [("weight", Plain (number 1))] true None (snd v) else Ok (snd v)) = Ok (copied (fun q => q) w) /\ no_new_dims (snd v) w).
    { clear -Back. induction Back as [|v u s' l' (_ & w & W1 & W2 & _) B IH]; [intros ? []|]. intros a [<-|Ia]; [exists w; auto|auto]. }
    apply each_no_new in E; [|exact Ol| |intros nv [<-|[]]; exact I|intros a b [<-|[]] _ ? ? []].
    2: { intros v Iv. cbn [forallb]. unfold value_has. cbn [snd its_part fst map]. rewrite !andb_true_r. now apply Fu. }
    destruct E as (t & Et & Ot & Nt & Ft). exists t. split; [exact Et|]. split; [exact Ot|].
    revert Back Ft. generalize (to_xset l) as u', (to_xset t) as t'. clear -Inj. intros u' t' Back. revert t'. induction Back as [|v u s' u' (E1 & w & W1 & _ & W2) B IH]; intros t' F; inversion F as [|? x ? t'' (E3 & E4 & _) F' ]; subst; [constructor|]. constructor; [|now apply IH].
    split; [congruence|]. cbn [forallb] in E4. unfold value_has in E4. cbn [snd its_part fst map] in E4. rewrite !andb_true_r in E4. rewrite W1 in E4. injection E4 as E4. assert (Q : w = snd x) by (apply Inj; unfold copied; congruence). now rewrite <- Q.
  Qed.
End Set_.
