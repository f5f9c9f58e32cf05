(* Functions of Datasets: apply_ufunc acts on each variable. *)
From Coq Require Import String Permutation.
From Verif Require Import Base BaseLemmas ModelPush ModelKernels ModelIndex ModelAxes ModelParams ModelWrap ModelNd ModelLabel ModelDataset Spec SpecAxes SpecNd SpecLabel SpecDataset
  ProofAxes ProofArrays ProofIndex ProofNd PropAxes PropParams PropWrap PropLabelled PropNd PropNdUse ProofLabel ProofLabelMany.
Local Open Scope string_scope.
Local Open Scope nat_scope.

(* ---- sizes ------------------------------------------------------------------------------ *)

Lemma foldR_concat {X Y} (f : X -> Y -> res X) ls : forall acc, foldR (fun a l => foldR f l a) ls acc = foldR f (List.concat ls) acc.
Proof.
  induction ls as [|l ls IH]; intros acc; [reflexivity|]. cbn [foldR List.concat]. revert acc. induction l as [|y l IHl]; intros acc; cbn [foldR app rbind]; [apply IH|].
  destruct (f acc y) as [a|e]; cbn [rbind]; [apply IHl|reflexivity].
Qed.
Lemma unify_raise excl l e : forall acc, foldR (unify_dim excl) l acc = Raise e ->
  exists n a b, ~ In n excl /\ (lookup n acc = Some a \/ In (n, a) l) /\ In (n, b) l /\ a <> b.
Proof.
  induction l as [|[n k] l IH]; intros acc H; [discriminate|]. cbn [foldR] in H. unfold unify_dim at 1 in H. cbn [fst snd] in H.
  destruct (smem n excl) eqn:S; cbn [rbind] in H.
  - destruct (IH _ H) as (m & a & b & H1 & H2 & H3 & H4). exists m, a, b. cbn [In]. tauto.
  - apply smem_false in S. destruct (lookup n acc) as [j|] eqn:L.
    + destruct (Nat.eqb_spec j k) as [->|D]; cbn [rbind] in H.
      * destruct (IH _ H) as (m & a & b & H1 & H2 & H3 & H4). exists m, a, b. cbn [In]. tauto.
      * exists n, j, k. cbn [In]. tauto.
    + cbn [rbind] in H. destruct (IH _ H) as (m & a & b & H1 & H2 & H3 & H4). exists m, a, b. cbn [In]. split; [exact H1|]. split; [|tauto].
      destruct H2 as [H2|H2]; [|tauto]. assert (X : lookup m acc = Some a \/ (n, k) = (m, a)).
      { clear - H2. unfold lookup in *. induction acc as [|[n' v] acc IHa]; cbn [find app fst snd] in *.
        - destruct (String.eqb_spec n m) as [->|]; [right; cbn [snd] in H2; injection H2 as <-; reflexivity|discriminate].
        - destruct (String.eqb n' m); [now left|auto]. }
      tauto.
Qed.
Lemma lookup_In n k l : lookup n l = Some k -> In (n, k) l.
Proof.
  unfold lookup. induction l as [|[m j] l IH]; [discriminate|]. cbn [find fst snd]. destruct (String.eqb_spec m n) as [->|D]; [intros [= ->]; now left|]. intros H. right. auto.
Qed.
Lemma In_lookup n k l : NoDup (map fst l) -> In (n, k) l -> lookup n l = Some k.
Proof.
  unfold lookup. induction l as [|[m j] l IH]; [intros _ []|]. cbn [find fst snd map]. intros N. inversion_clear N as [|? ? Nn N']. intros [[= -> ->]|I].
  - now rewrite String.eqb_refl.
  - destruct (String.eqb_spec m n) as [->|D]; [|auto]. exfalso. apply Nn. apply in_map_iff. now exists (n, k).
Qed.
Lemma combine_fst {X Y} (a : list X) (b : list Y) : exists c, a = (map fst (combine a b) ++ c)%list.
Proof. revert b. induction a as [|x a IH]; intros [|y b]; cbn; eauto. destruct (IH b) as [c E]. exists c. now rewrite <- E. Qed.
Lemma NoDup_combine {Y} (a : list sname) (b : list Y) : NoDup a -> NoDup (map fst (combine a b)).
Proof. intros N. destruct (combine_fst a b) as [c E]. rewrite E in N. now apply NoDup_app_iff in N as [N _]. Qed.

(* the sizes of a result by name *)
Definition l_sizes {T} (g : lgrid T) : list (sname * nat) := combine (lg_dims g) (gshape (lg_val g)).
Lemma checked_spec {T} (r : lset T) : (forall v, In v r -> NoDup (lg_dims (snd v))) ->
  match ls_checked r with
  | Ok r' => r' = r /\ forall v w, In v r -> In w r -> ~ clash (snd v) (snd w)
  | Raise e => e = EValue /\ exists v w, In v r /\ In w r /\ clash (snd v) (snd w)
  end.
Proof.
  intros N. unfold ls_checked, dims_sizes. rewrite foldR_concat. change (map _ r) with (map (fun v => l_sizes (snd v)) r). destruct (foldR _ _ _) as [s|e] eqn:E; cbn [rbind].
  - split; [reflexivity|]. intros v w Iv Iw (n & a & b & La & Lb & D). apply D.
    assert (X : forall v k, In v r -> lookup n (l_sizes (snd v)) = Some k -> lookup n s = Some k).
    { intros u k Iu L. apply (unify_adds _ _ _ _ E); [intros []|]. apply in_concat. exists (l_sizes (snd u)). split; [apply in_map_iff; now exists u|]. now apply lookup_In. }
    pose proof (X v a Iv La). pose proof (X w b Iw Lb). congruence.
  - split; [now apply unify_err in E|]. destruct (unify_raise _ _ _ _ E) as (n & a & b & _ & [A|A] & B & D); [discriminate|].
    apply in_concat in A as (lv & Iv & A). apply in_concat in B as (lw & Iw & B). apply in_map_iff in Iv as (v & <- & Iv). apply in_map_iff in Iw as (w & <- & Iw).
    exists v, w. split; [exact Iv|]. split; [exact Iw|]. exists n, a, b.
    assert (X : forall v k, In v r -> In (n, k) (l_sizes (snd v)) -> lookup n (l_sizes (snd v)) = Some k).
    { intros u k Iu I. apply In_lookup; [|exact I]. now apply NoDup_combine, N. }
    split; [now apply X|]. split; [now apply X|exact D].
Qed.
Lemma aligned_ok excl xs : (forall x y n, In x xs -> In y xs -> ~ In n excl -> In n (x_dims x) -> In n (x_dims y) -> dim_size x n = dim_size y n) -> (forall x, In x xs -> x_ok x) ->
  exists s, foldR (fun sz x => foldR (unify_dim excl) (combine (x_dims x) (x_shape x)) sz) xs [] = Ok s /\ forall n, In n (map fst s) <-> ~ In n excl /\ exists x, In x xs /\ In n (x_dims x).
Proof.
  intros A O. assert (F : forall acc, foldR (fun sz x => foldR (unify_dim excl) (combine (x_dims x) (x_shape x)) sz) xs acc = foldR (unify_dim excl) (flat_map (fun x => map (fun n => (n, dim_size x n)) (x_dims x)) xs) acc).
  { intros acc. rewrite flat_map_concat_map, <- foldR_concat. clear A. revert acc. induction xs as [|x l IH]; intros acc; [reflexivity|]. cbn [foldR map]. rewrite (combine_named x) by (apply O; now left).
    destruct (foldR (unify_dim excl) _ acc); cbn [rbind]; [|reflexivity]. apply IH. intros y Iy. apply O. now right. }
  rewrite F. clear F. destruct (foldR _ _ []) as [s|e] eqn:E.
  - exists s. split; [reflexivity|]. intros n. split.
    + intros I. assert (G : forall l acc s, foldR (unify_dim excl) l acc = Ok s -> In n (map fst s) -> In n (map fst acc) \/ ~ In n excl /\ In n (map fst l)).
      { clear. induction l as [|[m k] l IH]; intros acc s H I; [injection H as ->; now left|]. cbn [foldR] in H. unfold unify_dim at 1 in H. cbn [fst snd] in H.
        destruct (smem m excl) eqn:S; cbn [rbind] in H; [destruct (IH _ _ H I) as [|[]]; [now left|right; split; [assumption|now right]]|]. apply smem_false in S.
        destruct (lookup m acc) as [j|]; [destruct (Nat.eqb j k); [|discriminate]|]; cbn [rbind] in H; destruct (IH _ _ H I) as [J|[J1 J2]]; try (right; split; [assumption|now right]); [now left|].
        rewrite map_app in J. apply in_app_or in J as [J|[<-|[]]]; [now left|]. right. split; [exact S|now left]. }
      destruct (G _ _ _ E I) as [[]|[H1 H2]]. split; [exact H1|]. apply in_map_iff in H2 as ([m k] & <- & H2). apply in_flat_map in H2 as (x & Ix & H2). apply in_map_iff in H2 as (m' & [= <- <-] & H2). now exists x.
    + intros (H1 & x & Ix & Hn). assert (L : lookup n s = Some (dim_size x n)).
      { apply (unify_adds _ _ _ _ E); [exact H1|]. apply in_flat_map. exists x. split; [exact Ix|]. apply in_map_iff. now exists n. }
      apply lookup_In in L. apply in_map_iff. now exists (n, dim_size x n).
  - exfalso. destruct (unify_raise _ _ _ _ E) as (n & a & b & He & [H|H] & H' & D); [discriminate|]. apply D.
    apply in_flat_map in H as (x & Ix & H). apply in_flat_map in H' as (y & Iy & H'). apply in_map_iff in H as (m & [= -> <-] & H). apply in_map_iff in H' as (m' & [= -> <-] & H'). now apply A.
Qed.

(* ---- each variable ------------------------------------------------------------------------ *)

Section Each.
  Context {T : Type}.
  Lemma each_checked (f : sname * xarr -> res (lgrid T)) s : (forall v g, In v s -> f v = Ok g -> NoDup (lg_dims g)) ->
    each_variable f s (rbind (mapR (fun v => rmap (pair (fst v)) (f v)) s) ls_checked).
  Proof.
    intros N. destruct (mapR _ s) as [l|e] eqn:E; cbn [rbind].
    - apply ProofAxes.mapR_Forall2 in E. assert (F : Forall2 (fun v w => fst w = fst v /\ f v = Ok (snd w)) s l).
      { eapply Forall2_imp_; [|exact E]. intros v w H. cbn in H. destruct (f v) as [g|]; [|discriminate]. cbn in H. injection H as <-. auto. }
      assert (Nl : forall w, In w l -> exists v, In v s /\ f v = Ok (snd w)).
      { clear -F. induction F as [|v w s l H F IH]; intros u; [intros []|]. intros [->|I]; [exists v; split; [now left|apply H]|]. destruct (IH u I) as (v' & ? & ?). exists v'. split; [now right|auto]. }
      pose proof (checked_spec l) as C. destruct (ls_checked l) as [l'|e].
      + destruct C as [-> C]; [intros w Iw; destruct (Nl w Iw) as (v & Iv & Ev); eauto|]. split; auto.
      + destruct C as [-> (v & w & Iv & Iw & C)]; [intros w Iw; destruct (Nl w Iw) as (v & Iv & Ev); eauto|]. right. split; [reflexivity|].
        destruct (Nl v Iv) as (v' & ? & ?), (Nl w Iw) as (w' & ? & ?). exists v', w', (snd v), (snd w). auto.
    - left. apply mapR_raise in E as (v & Iv & E). exists v. split; [exact Iv|]. destruct (f v); cbn in E; congruence.
  Qed.
  Lemma each_ext (f g : sname * xarr -> res (lgrid T)) s r : (forall v, In v s -> f v = g v) -> each_variable f s r -> each_variable g s r.
  Proof.
    intros X H. destruct r as [l|e]; cbn in *.
    - destruct H as [F C]. split; [|exact C]. clear C. induction F as [|v w s l H F IH]; constructor; [|apply IH; intros u Hu; apply X; now right]. rewrite <- X by now left. exact H.
    - destruct H as [(v & Iv & E)|(E0 & v & w & g1 & g2 & Iv & Iw & E1 & E2 & C)]; [left; exists v; now rewrite <- X|right; split; [exact E0|]]. exists v, w, g1, g2. rewrite <- !X by auto. auto.
  Qed.
  (* a function of the results that keeps the sizes of the dimensions, or renames them *)
  Lemma each_finish (f : sname * xarr -> res (lgrid T)) fin s r : each_variable f s r ->
    (forall v g, In v s -> f v = Ok g -> exists g', fin (fst v) g = Ok g') ->
    (forall v w g h g' h', In v s -> In w s -> f v = Ok g -> f w = Ok h -> fin (fst v) g = Ok g' -> fin (fst w) h = Ok h' -> clash g h <-> clash g' h') ->
    each_variable (fun v => rbind (f v) (fin (fst v))) s (rbind r (ls_map fin)).
  Proof.
    intros H Tot Cl. destruct r as [l|e]; cbn [rbind].
    - destruct H as [F C].
      assert (X : exists l', ls_map fin l = Ok l' /\ Forall2 (fun v w => fst w = fst v /\ rbind (f v) (fin (fst v)) = Ok (snd w)) s l' /\ Forall2 (fun w w' => fin (fst w) (snd w) = Ok (snd w')) l l').
      { clear C Cl. unfold ls_map. induction F as [|v w s l [Hn Hf] F IH]; [exists []; repeat constructor|].
        destruct (Tot v (snd w) (or_introl eq_refl) Hf) as [g' Eg]. destruct IH as (l' & E1 & E2 & E3); [intros; apply Tot; [now right|assumption]|].
        exists ((fst w, g') :: l'). cbn [mapR]. rewrite Hn, Eg. cbn [rmap rbind]. rewrite E1. cbn [rbind]. split; [reflexivity|]. split; constructor; auto; cbn [fst snd]; [|now rewrite Hn]. rewrite Hf. split; [reflexivity|exact Eg]. }
      destruct X as (l' & -> & F1 & F2). split; [exact F1|]. intros v' w' Iv Iw C'.
      assert (Y : forall w', In w' l' -> exists v w, In v s /\ In w l /\ f v = Ok (snd w) /\ fin (fst v) (snd w) = Ok (snd w')).
      { clear -F F2. revert l' F2. induction F as [|v w s l [Hn Hf] F IH]; intros l' F2; inversion F2; subst; intros u; [intros []|]. intros [->|I].
        - exists v, w. repeat split; auto; try (now left). now rewrite <- Hn.
        - destruct (IH _ H3 u I) as (v1 & w1 & ? & ? & ?). exists v1, w1. repeat split; try (now right); tauto. }
      destruct (Y v' Iv) as (v & gv & Iv0 & Igv & Ev & Ev'), (Y w' Iw) as (w & gw & Iw0 & Igw & Ew & Ew'). apply (C gv gw Igv Igw). eapply Cl with (v := v) (w := w); eauto.
    - destruct H as [(v & Iv & E)|(E0 & v & w & g & h & Iv & Iw & E1 & E2 & C)]; [left; exists v; rewrite E; auto|right; split; [exact E0|]].
      destruct (Tot v g Iv E1) as [g' G], (Tot w h Iw E2) as [h' H]. exists v, w, g', h'. rewrite E1, E2. cbn [rbind]. repeat split; auto. apply (Cl v w g h g' h'); auto.
  Qed.
End Each.

(* ---- transposes of results ------------------------------------------------------------------- *)

Definition lg_wf {T} (g : lgrid T) : Prop := NoDup (lg_dims g) /\ List.length (gshape (lg_val g)) = List.length (lg_dims g).
Definition same_sizes {T} (g h : lgrid T) : Prop := forall n, lookup n (l_sizes g) = lookup n (l_sizes h).
Lemma same_sizes_clash {T} (g g' h h' : lgrid T) : same_sizes g g' -> same_sizes h h' -> clash g h <-> clash g' h'.
Proof. intros E1 E2. split; intros (n & a & b & A & B & D); exists n, a, b; fold (l_sizes g) (l_sizes g') (l_sizes h) (l_sizes h') in *; [rewrite <- E1, <- E2|rewrite E1, E2]; auto. Qed.
Lemma lookup_combine dims shape n : NoDup dims -> List.length shape = List.length dims ->
  lookup n (combine dims shape) = if smem n dims then Some (nth (position String.eqb n dims) shape 0) else None.
Proof.
  intros N L. assert (E : combine dims shape = map (fun n => (n, nth (position String.eqb n dims) shape 0)) dims).
  { revert shape L. induction dims as [|d dims IH]; intros [|k shape] L; try discriminate; [reflexivity|]. inversion_clear N as [|? ? Nd N']. cbn [combine map position]. rewrite String.eqb_refl. f_equal. injection L as L. rewrite IH by auto.
    apply map_ext_in. intros m Hm. destruct (String.eqb_spec m d) as [->|D]; [contradiction|reflexivity]. }
  rewrite E. apply lookup_tab.
Qed.
Lemma l_transpose_total {T} (dflt : T) order g : lg_wf g -> NoDup (filter (fun n => smem n (lg_dims g)) order) ->
  exists g', l_transpose dflt (None :: map Some order) g = Ok g' /\ same_sizes g g' /\ lg_wf g' /\ lg_dims g' = (except_name (lg_dims g) order ++ filter (fun n => smem n (lg_dims g)) order)%list.
Proof.
  intros (N & L) No. set (dims := lg_dims g) in *. set (O := filter (fun n => smem n dims) order) in *.
  assert (IO : incl O dims) by (intros n Hn; apply filter_In in Hn; now apply smem_In).
  assert (Ex : except_name dims O = except_name dims order).
  { unfold except. apply filter_ext_in. intros n Hn. destruct (in_dec string_dec n O) as [H|H], (in_dec string_dec n order) as [H'|H']; try reflexivity; exfalso.
    - apply filter_In in H. tauto.
    - apply H. apply filter_In. split; [exact H'|]. now apply smem_In. }
  unfold l_transpose. cbn [filter]. fold dims. rewrite known_some. fold O. rewrite (infix_front O dims No IO), Ex. cbn [rbind]. set (ds := (except_name dims order ++ O)%list).
  assert (Pm : Permutation ds dims).
  { assert (I : infix_dims (None :: map Some O) dims = Ok ds) by (unfold ds; rewrite <- Ex; now apply infix_front). now apply (infix_ok _ _ _ N I). }
  destruct (axis_nums_incl dims ds) as (ord & Eo); [intros n; now apply Permutation_in|]. rewrite Eo. cbn [rbind]. eexists. split; [reflexivity|].
  assert (Es : gshape (gtranspose dflt ord (lg_val g)) = map (fun n => nth (position String.eqb n dims) (gshape (lg_val g)) 0) ds).
  { cbn [gtranspose gtabulate gshape]. apply axis_nums in Eo; [|exact N]. clear -Eo N. induction Eo as [|a n ord ds H E IH]; [reflexivity|]. cbn [map]. f_equal; [|exact IH]. f_equal. symmetry. now apply position_unique. }
  assert (Nds : NoDup ds) by (eapply Permutation_NoDup; [apply Permutation_sym, Pm|exact N]).
  split; [|split; [split; [exact Nds|cbn [lg_val lg_dims]; now rewrite Es, map_length]|reflexivity]].
  intros n. unfold l_sizes. cbn [lg_val lg_dims]. rewrite Es. fold dims. rewrite lookup_combine by auto.
  replace (combine ds (map (fun n => nth (position String.eqb n dims) (gshape (lg_val g)) 0) ds)) with (map (fun n => (n, nth (position String.eqb n dims) (gshape (lg_val g)) 0)) ds).
  - rewrite (lookup_tab (fun n => nth (position String.eqb n dims) (gshape (lg_val g)) 0)). assert (Em : smem n ds = smem n dims); [|now rewrite Em].
    destruct (smem n dims) eqn:S; [apply smem_In; apply smem_In in S; eapply Permutation_in; [apply Permutation_sym, Pm|exact S]|]. apply smem_false. intros Q. apply smem_false in S. apply S. now apply (Permutation_in _ Pm).
  - clear. induction ds as [|m ds IH]; [reflexivity|]. cbn. now rewrite IH.
Qed.
Lemma same_sizes_refl {T} (g : lgrid T) : same_sizes g g. Proof. intros n. reflexivity. Qed.
(* Variable.transpose is DataArray.transpose, but leaves the array if the order stays *)
Lemma var_transpose_total {T} (dflt : T) order g : lg_wf g -> NoDup (filter (fun n => smem n (lg_dims g)) order) ->
  exists g', var_transpose dflt (None :: map Some order) g = Ok g' /\ same_sizes g g'.
Proof.
  intros W N. destruct (l_transpose_total dflt order g W N) as (g' & E & S & _). unfold var_transpose. unfold l_transpose in E. destruct (infix_dims _ _) as [ds|]; [|discriminate]. cbn [rbind] in *.
  destruct (list_eq_dec string_dec ds (lg_dims g)); [exists g; split; [reflexivity|apply same_sizes_refl]|]. destruct (mapR _ ds); [|discriminate]. cbn [rbind] in *. eexists. split; [reflexivity|]. injection E as <-. exact S.
Qed.
Lemma var_transpose_end {T} (dflt : T) pre order g : lg_dims g = (pre ++ order)%list -> NoDup (lg_dims g) -> var_transpose dflt (None :: map Some order) g = Ok g.
Proof.
  intros E N. unfold var_transpose. cbn [filter]. rewrite known_some, E.
  assert (F : filter (fun n => smem n (pre ++ order)) order = order) by (apply filter_all; intros n Hn; apply smem_In, in_or_app; now right). rewrite F. rewrite E in N.
  rewrite infix_front by (try (intros n Hn; apply in_or_app; now right); now apply NoDup_app_iff in N as (_ & N & _)). cbn [rbind].
  assert (X : except_name (pre ++ order) order = pre).
  { unfold except. rewrite filter_app, (filter_none _ order), app_nil_r by (intros n Hn; now destruct (in_dec string_dec n order)). apply filter_all. intros n Hn. destruct (in_dec string_dec n order) as [H|]; [|reflexivity]. exfalso. apply NoDup_app_iff in N as (_ & _ & N). now apply (N n). }
  rewrite X. destruct (list_eq_dec string_dec (pre ++ order) (pre ++ order)); congruence.
Qed.

(* ---- variables passed on -------------------------------------------------------------------------- *)

Lemma passed_perm order x : NoDup (x_dims x) -> NoDup (filter (fun n => smem n (x_dims x)) order) -> Permutation (passed_dims order x) (x_dims x).
Proof.
  intros N No. assert (E : except_name (x_dims x) order = except_name (x_dims x) (filter (fun n => smem n (x_dims x)) order)).
  { unfold except. apply filter_ext_in. intros n Hn. destruct (in_dec string_dec n (filter _ _)) as [H|H], (in_dec string_dec n order) as [H'|H']; try reflexivity; exfalso.
    - apply filter_In in H. tauto.
    - apply H. apply filter_In. split; [exact H'|]. now apply smem_In. }
  unfold passed_dims. rewrite E. assert (I : incl (filter (fun n => smem n (x_dims x)) order) (x_dims x)) by (intros n Hn; apply filter_In in Hn; now apply smem_In).
  exact (proj1 (infix_ok _ _ _ N (infix_front _ _ No I))).
Qed.
Lemma copied_named {T} (inj : Qc -> T) x : x_ok x -> l_named (dim_size x) (x_dims x) (copied inj x) /\
  forall dflt env, x_inside x env -> l_at dflt (copied inj x) env = inj (x_at x env).
Proof.
  intros H. pose proof (shape_named x H) as Es. split.
  - split; [reflexivity|]. split; [|exact Es]. unfold copied, grid_ok. cbn [lg_val gdata gshape]. rewrite map_length. apply H.
  - intros dflt env He. unfold l_at, x_at, copied, gget, tget. cbn [lg_val lg_dims gdata gshape]. fold (x_shape x).
    rewrite (nth_indep _ dflt (inj 0%Qc)); [apply map_nth|]. rewrite map_length. destruct H as (Ht & _ & _). unfold tensor_ok in Ht. rewrite Ht. fold (x_shape x). apply ravel_lt. rewrite Es. apply inside_names_valid. exact He.
Qed.
Lemma passed_named {T} (inj : Qc -> T) order x : x_ok x -> NoDup (filter (fun n => smem n (x_dims x)) order) ->
  l_named (dim_size x) (passed_dims order x) (passed inj order x) /\ forall dflt env, x_inside x env -> l_at dflt (passed inj order x) env = inj (x_at x env).
Proof.
  intros H No. split; [split; [reflexivity|]; split; [apply gtabulate_ok|reflexivity]|]. intros dflt env He. unfold l_at, passed. cbn [lg_val lg_dims].
  pose proof (passed_perm order x (proj1 (proj2 H)) No) as Pm. rewrite gget_gtabulate.
  - f_equal. unfold x_at. f_equal. apply map_ext_in. intros n Hn. apply (Permutation_in _ (Permutation_sym Pm)) in Hn. destruct (In_nth _ _ "" Hn) as (k & Hk & En). rewrite <- En at 1.
    rewrite name_bind_in; [now rewrite (nth_map_dims env _ k Hk), En|eapply Permutation_NoDup; [apply Permutation_sym, Pm|apply H]|apply map_length|exact Hk].
  - apply inside_names_valid. intros n Hn. apply He. now apply (Permutation_in _ Pm).
Qed.
Lemma named_eq {T} (dflt : T) sz ds (g h : lgrid T) : NoDup ds -> l_named sz ds g -> l_named sz ds h -> (forall env, inside_names sz ds env -> l_at dflt g env = l_at dflt h env) -> g = h.
Proof.
  intros N (D1 & G1 & S1) (D2 & G2 & S2) E. destruct g as [d1 g], h as [d2 h]. cbn [lg_dims lg_val] in *. subst d1 d2. f_equal. apply (grid_ext dflt); auto; [congruence|]. intros i Hi. rewrite S1 in Hi.
  assert (Li : List.length i = List.length ds) by (rewrite (valid_length _ _ Hi); apply map_length).
  specialize (E (name_bind ds i (fun _ => 0))). unfold l_at in E. cbn [lg_dims lg_val] in E. rewrite map_name_bind in E by auto. apply E.
  intros n Hn. destruct (In_nth _ _ "" Hn) as (k & Hk & En). rewrite <- En at 1. rewrite name_bind_in by auto. rewrite <- En, <- (nth_map_dims sz ds k Hk). apply valid_nth; [exact Hi|now rewrite map_length].
Qed.
Lemma passed_transpose {T} (dflt : T) inj order x : x_ok x -> NoDup (filter (fun n => smem n (x_dims x)) order) ->
  l_transpose dflt (None :: map Some order) (copied inj x) = Ok (passed inj order x) /\ var_transpose dflt (None :: map Some order) (copied inj x) = Ok (passed inj order x).
Proof.
  intros H No. destruct (copied_named inj x H) as [C1 C2], (passed_named inj order x H No) as [P1 P2]. pose proof (passed_perm order x (proj1 (proj2 H)) No) as Pm.
  assert (N : NoDup (passed_dims order x)) by (eapply Permutation_NoDup; [apply Permutation_sym, Pm|apply H]).
  assert (I : infix_dims (filter (fun o => match o with Some n => smem n (x_dims x) | None => true end) (None :: map Some order)) (x_dims x) = Ok (passed_dims order x)).
  { cbn [filter]. rewrite known_some. set (O := filter (fun n => smem n (x_dims x)) order) in *. rewrite infix_front; [|exact No|intros n Hn; apply filter_In in Hn; now apply smem_In]. f_equal. unfold passed_dims. fold O. f_equal.
    unfold except. apply filter_ext_in. intros n Hn. destruct (in_dec string_dec n O) as [Q|Q], (in_dec string_dec n order) as [Q'|Q']; try reflexivity; exfalso.
    - apply filter_In in Q. tauto.
    - apply Q. apply filter_In. split; [exact Q'|]. now apply smem_In. }
  assert (L : l_transpose dflt (None :: map Some order) (copied inj x) = Ok (passed inj order x)).
  { destruct (l_transpose_ok dflt (None :: map Some order) (dim_size x) (x_dims x) (passed_dims order x) (copied inj x) C1 (proj1 (proj2 H)) I) as (g' & E & G & _ & F). rewrite E. f_equal.
    apply (named_eq dflt (dim_size x) (passed_dims order x)); auto. intros env He. assert (Hx : x_inside x env) by (intros n Hn; apply He; now apply (Permutation_in _ (Permutation_sym Pm))). rewrite F by exact Hx. now rewrite C2, P2. }
  split; [exact L|]. unfold var_transpose, l_transpose in *. cbn [lg_dims copied] in *. rewrite I in *. cbn [rbind] in *. destruct (list_eq_dec _ _ _) as [E|]; [|exact L]. f_equal.
  rewrite E in P1, N. apply (named_eq dflt (dim_size x) (x_dims x)); auto. intros env He. now rewrite C2, P2.
Qed.

(* ---- apply_ufunc ------------------------------------------------------------------------------------- *)

Lemma unify_nodup excl l : forall acc s, foldR (unify_dim excl) l acc = Ok s -> NoDup (map fst acc) -> NoDup (map fst s).
Proof.
  induction l as [|[n k] l IH]; intros acc s H N; [now injection H as <-|]. cbn [foldR] in H. unfold unify_dim at 1 in H. cbn [fst snd] in H. destruct (smem n excl); cbn [rbind] in H; [eauto|].
  destruct (lookup n acc) as [j|] eqn:L; [destruct (Nat.eqb j k); [|discriminate]; cbn [rbind] in H; eauto|]. cbn [rbind] in H. apply (IH _ _ H). rewrite map_app. apply NoDup_app_; [exact N|repeat constructor; intros []|].
  intros m Hm [<-|[]]. apply in_map_iff in Hm as ([m' j] & E' & Hm). cbn in E'. subst m'. apply In_lookup in Hm; [|exact N]. cbn [fst] in *. congruence.
Qed.
Lemma apply_dims {T} args out_core excl (f : list tensor -> res (grid T)) g : NoDup out_core -> apply_ufunc args out_core excl f = Ok g ->
  lg_wf g /\ exists pre, lg_dims g = (pre ++ out_core)%list.
Proof.
  intros No H. unfold apply_ufunc in H. destruct (unified_dim_sizes _ _) as [sz|] eqn:U; [|discriminate]. cbn [rbind] in H. destruct (mapR _ args); [|discriminate]. cbn [rbind] in H. destruct (f _) as [v|]; [|discriminate]. cbn [rbind] in H.
  destruct (Nat.eqb _ _) eqn:E; [|discriminate]. cbn [negb] in H. destruct (existsb _ _); [discriminate|]. injection H as <-. cbn [lg_dims lg_val]. split; [|eauto]. split; [|now apply Nat.eqb_eq]. cbn [lg_dims].
  apply NoDup_app_; [|exact No|].
  - apply NoDup_filter. assert (G : forall xs acc s, foldR (fun sz x => if sdup (x_dims x) then Raise EValue else foldR (unify_dim excl) (combine (x_dims x) (x_shape x)) sz) xs acc = Ok s -> NoDup (map fst acc) -> NoDup (map fst s)).
    { clear. induction xs as [|x xs IH]; intros acc s H N; [now injection H as <-|]. cbn [foldR] in H. destruct (sdup _); [discriminate|]. destruct (foldR (unify_dim excl) _ acc) as [a|] eqn:E; [|discriminate]. cbn [rbind] in H. eapply IH; [exact H|]. now apply (unify_nodup _ _ _ _ E). }
    apply (G _ _ _ U). constructor.
  - intros n Hn Q. apply filter_In in Hn as [_ Hn]. destruct (smem n (flat_map snd args ++ out_core)) eqn:S; [discriminate|]. apply smem_false in S. apply S, in_or_app. now right.
Qed.
Lemma copied_wf {T} (inj : Qc -> T) x : x_ok x -> lg_wf (copied inj x).
Proof. intros H. split; [apply H|]. cbn. symmetry. apply H. Qed.

Lemma get_var_In v s : NoDup (map fst s) -> In v s -> get_var (fst v) s = Some (snd v).
Proof.
  unfold get_var. induction s as [|w s IH]; [intros _ []|]. cbn [map find]. intros N. inversion_clear N as [|? ? Nw N']. intros [->|I]; [now rewrite String.eqb_refl|].
  destruct (String.eqb_spec (fst w) (fst v)) as [E|D]; [|auto]. exfalso. apply Nw. rewrite E. apply in_map_iff. now exists v.
Qed.
Lemma get_var_name n s : In n (map fst s) -> exists x, get_var n s = Some x /\ In (n, x) s.
Proof.
  unfold get_var. induction s as [|[m x] s IH]; [intros []|]. cbn [map find fst]. destruct (String.eqb_spec m n) as [->|D]; [intros _; exists x; split; [reflexivity|now left]|]. intros [E|I]; [contradiction|]. destruct (IH I) as (y & ? & ?). exists y. split; [assumption|now right].
Qed.
Lemma fits_align s others excl : set_ok s -> (forall a, In a others -> fits s a) ->
  (forall a b, In a others -> In b others -> forall x y, In x (arrays_of a) -> In y (arrays_of b) -> sizes_agree x y) -> align excl (DSet s :: others) = Ok tt.
Proof.
  intros (Ns & Os & As) Ft Ag. unfold align. destruct (Nat.leb _ 1); [reflexivity|].
  assert (Cases : forall x, In x (flat_map arrays_of (DSet s :: others)) -> (exists v, In v s /\ x = snd v) \/ exists a, In a others /\ In x (arrays_of a)).
  { intros x Hx. apply in_flat_map in Hx as (a & [<-|Ia] & Hx); [left|right; eauto]. cbn [arrays_of] in Hx. apply in_map_iff in Hx as (v & <- & Iv). eauto. }
  assert (Sv : forall a v x, In a others -> In v s -> In x (arrays_of a) -> x_ok x /\ sizes_agree (snd v) x).
  { intros a v x Ia Iv Ix. specialize (Ft a Ia). destruct a as [t|[z|t]]; cbn [arrays_of labelled_of flat_map app fits] in *.
    - destruct Ft as ((_ & Ot & _) & _ & At). apply in_map_iff in Ix as (w & <- & Iw). split; auto.
    - destruct Ix as [<-|[]]. destruct Ft. split; auto.
    - destruct Ix. }
  assert (So : forall a x, In a others -> In x (arrays_of a) -> x_ok x).
  { intros a x Ia Ix. specialize (Ft a Ia). destruct a as [t|[z|t]]; cbn [arrays_of labelled_of flat_map app fits] in *; [|destruct Ix as [<-|[]]; apply Ft|destruct Ix]. apply in_map_iff in Ix as (w & <- & Iw). now apply Ft. }
  destruct (aligned_ok excl (flat_map arrays_of (DSet s :: others))) as (sz & -> & _); [| |reflexivity].
  - intros x y n Ix Iy _ Nx Ny. destruct (Cases x Ix) as [(v & Iv & ->)|(a & Ia & Ia')], (Cases y Iy) as [(w & Iw & ->)|(b & Ib & Ib')].
    + now apply As.
    + now apply (Sv b v y).
    + symmetry. now apply (Sv a w x).
    + now apply (Ag a b).
  - intros x Ix. destruct (Cases x Ix) as [(v & Iv & ->)|(a & Ia & Ia')]; eauto.
Qed.
Lemma fits_keys s a : fits s a -> same_keys s a = true.
Proof.
  destruct a as [t|]; [|reflexivity]. intros (_ & E & _). cbn [same_keys]. apply andb_true_intro. split; apply forallb_forall; intros n Hn; apply smem_In; now apply E.
Qed.
Lemma operand_part s v a : set_ok s -> fits s a -> In v s -> var_operand (fst v) a = Ok (its_part (fst v) a).
Proof.
  intros Hs Ft Iv. destruct a as [t|o]; [|reflexivity]. destruct Ft as (_ & E & _). cbn [var_operand its_part]. destruct (get_var_name (fst v) t) as (x & -> & _); [|reflexivity]. apply E. apply in_map_iff. now exists v.
Qed.
(* what apply_ufunc does with one variable *)
Definition var_fun {T} (inj : Qc -> T) core (others : list (dop * list sname)) out_core excl (f : list tensor -> res (grid T)) (v : sname * xarr) : res (lgrid T) :=
  if (has_names core (snd v) && forallb (fun a => part_has (snd a) (fst v) (fst a)) others)%bool
  then apply_ufunc ((Labelled (snd v), core) :: map (fun a => (its_part (fst v) (fst a), snd a)) others) out_core excl f
  else Ok (copied inj (snd v)).
Lemma ds_apply_each {T} (inj : Qc -> T) s core others out_core excl f : set_ok s -> NoDup out_core -> (forall a, In a (map fst others) -> fits s a) ->
  (forall a b, In a (map fst others) -> In b (map fst others) -> forall x y, In x (arrays_of a) -> In y (arrays_of b) -> sizes_agree x y) ->
  each_variable (var_fun inj core others out_core excl f) s (ds_apply inj s core others out_core excl f) /\
  (forall v g, In v s -> var_fun inj core others out_core excl f v = Ok g -> lg_wf g).
Proof.
  intros Hs No Ft Ag.
  assert (W : forall v g, In v s -> var_fun inj core others out_core excl f v = Ok g -> lg_wf g).
  { intros v g Iv E. unfold var_fun in E. destruct (_ && _)%bool; [now apply apply_dims in E as [E _]|]. injection E as <-. apply copied_wf. now apply Hs. }
  split; [|exact W]. unfold ds_apply. rewrite fits_align by assumption. cbn [rbind].
  assert (Ks : forallb (same_keys s) (map fst others) = true) by (apply forallb_forall; intros a Ia; now apply fits_keys, Ft). rewrite Ks. cbn [negb].
  assert (Ev : forall v, In v s -> apply_var inj core others out_core excl f v = var_fun inj core others out_core excl f v).
  { intros v Iv. unfold apply_var. rewrite (mapR_ext _ (fun a => Ok (its_part (fst v) a))) by (intros a Ia; apply (operand_part s); auto).
    assert (E : mapR (fun a => Ok (its_part (fst v) a)) (map fst others) = Ok (map (its_part (fst v)) (map fst others))) by (generalize (map fst others); intros l; induction l as [|a l IH]; [reflexivity|]; cbn [mapR rbind map]; now rewrite IH).
    rewrite E. cbn [rbind]. unfold var_fun. rewrite map_map.
    assert (C : combine (map (fun a => its_part (fst v) (fst a)) others) (map snd others) = map (fun a => (its_part (fst v) (fst a), snd a)) others) by (clear; induction others as [|a l IH]; [reflexivity|]; cbn; now rewrite IH).
    rewrite C. cbn [forallb]. change (has_core (Labelled (snd v), core)) with (has_names core (snd v)).
    assert (F : forallb has_core (map (fun a => (its_part (fst v) (fst a), snd a)) others) = forallb (fun a => part_has (snd a) (fst v) (fst a)) others).
    { clear. induction others as [|a l IH]; [reflexivity|]. cbn [map forallb]. rewrite IH. reflexivity. }
    rewrite F. reflexivity. }
  rewrite (mapR_ext _ (fun v => rmap (pair (fst v)) (var_fun inj core others out_core excl f v))) by (intros v Iv; now rewrite Ev).
  apply each_checked. intros v g Iv E. now apply (W v g Iv E).
Qed.

(* ---- apply_ufunc and the transpose after it -------------------------------------------------------------- *)

Lemma transpose_like_front {T} (dflt : T) template replace append g :
  transpose_like dflt template replace [] append g = l_transpose dflt (None :: map Some (map replace template ++ append)) g.
Proof. unfold transpose_like. rewrite filter_all by reflexivity. now rewrite map_app. Qed.
Section EachData.
  Context {T : Type} (dflt : T) (inj : Qc -> T) (s : xset) (core : list sname) (others : list (dop * list sname)) (out_core excl : list sname)
    (f : list tensor -> res (grid T)) (to_end : bool) (replace : sname -> sname) (append : list sname).
  Hypothesis Hs : set_ok s.
  Hypothesis No : NoDup out_core.
  Hypothesis Ft : forall a, In a (map fst others) -> fits s a.
  Hypothesis Ag : forall a b, In a (map fst others) -> In b (map fst others) -> forall x y, In x (arrays_of a) -> In y (arrays_of b) -> sizes_agree x y.
  Hypothesis Nr : to_end = false -> forall v, In v s -> NoDup (map replace (x_dims (snd v)) ++ append).

  Definition order_of (x : xarr) : list sname := if to_end then out_core else (map replace (x_dims x) ++ append)%list.
  Definition done_var (v : sname * xarr) : res (lgrid T) :=
    if (has_names core (snd v) && forallb (fun a => part_has (snd a) (fst v) (fst a)) others)%bool
    then rbind (apply_ufunc ((Labelled (snd v), core) :: map (fun a => (its_part (fst v) (fst a), snd a)) others) out_core excl f)
           (fun g => if to_end then Ok g else transpose_like dflt (x_dims (snd v)) replace [] append g)
    else Ok (passed inj (order_of (snd v)) (snd v)).
  Definition fin (n : sname) (g : lgrid T) : res (lgrid T) :=
    if to_end then var_transpose dflt (None :: map Some out_core) g
    else rbind (of_opt EKey (get_var n s)) (fun x => transpose_like dflt (x_dims x) replace [] append g).
  Lemma finish_is r : ds_finish dflt to_end s replace append out_core r = ls_map fin r.
  Proof. unfold ds_finish, ds_transpose, ds_transpose_like, fin. now destruct to_end. Qed.
  Lemma order_nodup v (l : list sname) : In v s -> NoDup (filter (fun n => smem n l) (order_of (snd v))).
  Proof. intros Iv. apply NoDup_filter. unfold order_of. destruct to_end; auto. Qed.
  Lemma fin_is v g : In v s -> to_end = false -> fin (fst v) g = l_transpose dflt (None :: map Some (order_of (snd v))) g.
  Proof. intros Iv E. unfold fin, order_of. rewrite E, (get_var_In v s (proj1 Hs) Iv). apply transpose_like_front. Qed.
  Lemma fin_total v g : In v s -> lg_wf g -> exists g', fin (fst v) g = Ok g' /\ same_sizes g g'.
  Proof.
    intros Iv W. destruct (bool_dec to_end true) as [E|E].
    - unfold fin. rewrite E. apply var_transpose_total; [exact W|]. now apply NoDup_filter.
    - apply not_true_is_false in E. rewrite (fin_is v g Iv E). destruct (l_transpose_total dflt (order_of (snd v)) g W (order_nodup v _ Iv)) as (g' & ? & ? & _). eauto.
  Qed.
  Lemma each_data : each_variable done_var s (rbind (ds_apply inj s core others out_core excl f) (ds_finish dflt to_end s replace append out_core)).
  Proof.
    destruct (ds_apply_each inj s core others out_core excl f Hs No Ft Ag) as [H W].
    assert (E : forall r, rbind r (ds_finish dflt to_end s replace append out_core) = rbind r (ls_map fin)) by (intros [r|]; [apply finish_is|reflexivity]). rewrite E.
    eapply each_ext; [|apply (each_finish _ fin s _ H)].
    - intros v Iv. cbn beta. unfold var_fun, done_var. destruct (_ && _)%bool.
      + destruct (apply_ufunc _ _ _ _) as [g|] eqn:A; cbn [rbind]; [|reflexivity]. destruct (apply_dims _ _ _ _ _ No A) as [Wg (pre & Eg)]. unfold fin. destruct to_end.
        * eapply var_transpose_end; [exact Eg|apply Wg].
        * now rewrite (get_var_In v s (proj1 Hs) Iv).
      + cbn [rbind]. destruct (passed_transpose dflt inj (order_of (snd v)) (snd v)) as [P1 P2]; [now apply Hs|now apply order_nodup|]. destruct (bool_dec to_end true) as [Et|Et].
        * unfold fin. unfold order_of in *. now rewrite Et in *.
        * apply not_true_is_false in Et. now rewrite fin_is.
    - intros v g Iv Ev. destruct (fin_total v g Iv (W v g Iv Ev)) as (g' & ? & _). eauto.
    - intros v w g h g' h' Iv Iw Ev Ew Fv Fw. destruct (fin_total v g Iv (W v g Iv Ev)) as (g1 & F1 & S1), (fin_total w h Iw (W w h Iw Ew)) as (h1 & F2 & S2).
      assert (g1 = g') by congruence. assert (h1 = h') by congruence. subst. now apply same_sizes_clash.
  Qed.
End EachData.

(* ---- the dimension ------------------------------------------------------------------------------------------- *)

Lemma ds_sizes_ok s : set_ok s -> exists sz, ds_sizes s = Ok sz /\ (forall n, In n (map fst sz) <-> exists v, In v s /\ In n (x_dims (snd v))) /\
  forall v n, In v s -> In n (x_dims (snd v)) -> lookup n sz = Some (dim_size (snd v) n).
Proof.
  intros (N & O & A). unfold ds_sizes, dims_sizes.
  assert (E : forall acc, foldR (fun sz v => foldR (unify_dim []) v sz) (map var_sizes s) acc = foldR (fun sz x => foldR (unify_dim []) (combine (x_dims x) (x_shape x)) sz) (map snd s) acc).
  { clear. induction s as [|v s IH]; intros acc; [reflexivity|]. cbn [map foldR]. unfold var_sizes at 1. destruct (foldR (unify_dim []) _ acc); cbn [rbind]; [apply IH|reflexivity]. }
  rewrite E. destruct (aligned_ok [] (map snd s)) as (sz & Es & Hn).
  - intros x y n Ix Iy _. apply in_map_iff in Ix as (v & <- & Iv). apply in_map_iff in Iy as (w & <- & Iw). now apply A.
  - intros x Ix. apply in_map_iff in Ix as (v & <- & Iv). auto.
  - exists sz. split; [exact Es|]. split.
    + intros n. rewrite Hn. split; [intros (_ & x & Ix & Hx); apply in_map_iff in Ix as (v & <- & Iv); eauto|]. intros (v & Iv & Hv). split; [intros []|]. exists (snd v). split; [|exact Hv]. apply in_map_iff. now exists v.
    + intros v n Iv Hv. rewrite <- E in Es. rewrite foldR_concat in Es. apply (unify_adds _ _ _ _ Es); [intros []|]. apply in_concat. exists (var_sizes v). split; [apply in_map_iff; now exists v|]. unfold var_sizes. rewrite combine_named by auto. apply in_map_iff. now exists n.
Qed.
Lemma ds_dims_ok s : set_ok s -> exists dims, ds_dims s = Ok dims /\ forall n, In n dims <-> exists v, In v s /\ In n (x_dims (snd v)).
Proof. intros H. destruct (ds_sizes_ok s H) as (sz & E & Hn & _). exists (map fst sz). unfold ds_dims. now rewrite E. Qed.
Lemma ds_size_ok s v n : set_ok s -> In v s -> In n (x_dims (snd v)) -> ds_size s n = Ok (dim_size (snd v) n).
Proof. intros H Iv Hv. destruct (ds_sizes_ok s H) as (sz & E & _ & L). unfold ds_size. rewrite E. cbn [rbind]. now rewrite (L v n Iv Hv). Qed.
Lemma ds_with_dim_eq {X} s md d (f : sname -> list sname -> list sname -> list Z -> axis_arg -> res X) : set_ok s -> ~ In d md -> List.length md = 1 \/ List.length md = 2 ->
  ds_with_dim (params_for md) Missing (Val d) s f = f d md (d :: md) (axes_last (List.length md)) (AInt (- (Z.of_nat (List.length md) + 1))).
Proof.
  intros H Nd L. destruct (ds_dims_ok s H) as (dims & E & _). unfold ds_with_dim. rewrite E. cbn [rbind]. unfold select_axis_dim. cbn [validate_not_none guard rbind]. unfold guard. cbn [rbind].
  unfold raise_if_dim_in_mom_dims. cbn [xp_dims params_for]. rewrite (proj2 (smem_false d md) Nd). cbn [rbind]. unfold core_dims, iter_dims, array_axes, x_to_array, get_axes, neg_axis. cbn [xp_dims xp_ndim params_for rbind app].
  destruct L as [L|L]; rewrite L; reflexivity.
Qed.
(* anything but a name of a dimension that is not a moment dimension is an error *)
Lemma ds_with_dim_err {X} s md axis dim (f : sname -> list sname -> list sname -> list Z -> axis_arg -> res X) : set_ok s ->
  ~ (axis = Missing /\ exists d, dim = Val d /\ ~ In d md) -> exists e, (e = EValue \/ e = EType) /\ ds_with_dim (params_for md) axis dim s f = Raise e.
Proof.
  intros H Bad. destruct (ds_dims_ok s H) as (dims & E & _). unfold ds_with_dim. rewrite E. cbn [rbind]. unfold select_axis_dim, guard.
  destruct axis as [| |a], dim as [| |d]; cbn [validate_not_none rbind]; try (eexists; split; [|reflexivity]; auto; fail).
  unfold raise_if_dim_in_mom_dims. cbn [xp_dims params_for]. destruct (smem d md) eqn:S; cbn [rbind]; [eexists; split; [|reflexivity]; auto|]. exfalso. apply Bad. split; [reflexivity|]. exists d. split; [reflexivity|]. now apply smem_false.
Qed.
