(* C149: out= of the functions of moment arrays fills an array of the shape of the
   result with the result. *)
From Coq Require Import String Permutation.
From Verif Require Import Base BaseLemmas ModelPush ModelKernels ModelIndex ModelAxes ModelState ModelParams ModelWrap ModelNd ModelLabel ModelMoments ModelMomentsX ModelOut Spec SpecAxes SpecNd SpecLabel SpecLabelTwo SpecMomentsX SpecOut.
From Verif Require Import ProofAxes ProofArrays ProofNd PropAxes PropParams PropLabelled PropNdUse ProofLabel PropLabelReduce PropLabelJack ProofMomentsX ProofOut.
Local Open Scope string_scope.
Local Open Scope nat_scope.

Lemma filter_map_swap {X Y} (h : X -> Y) (p : Y -> bool) l : filter p (map h l) = map h (filter (fun x => p (h x)) l).
Proof. induction l as [|a l IH]; [reflexivity|]. cbn. rewrite IH. now destruct (p (h a)). Qed.
Lemma except_positions Dx C : NoDup Dx -> incl C Dx ->
  map (fun a => nth a Dx "") (except_nat (seq 0 (List.length Dx)) (map (fun n => position String.eqb n Dx) C)) = except_name Dx C.
Proof.
  intros N I. transitivity (except_name (map (fun a => nth a Dx "") (seq 0 (List.length Dx))) C); [|now rewrite map_nth_dims]. unfold except. rewrite filter_map_swap. f_equal. apply filter_ext_in. intros a Ha. apply in_seq in Ha.
  destruct (in_dec Nat.eq_dec a _) as [H|H], (in_dec string_dec (nth a Dx "") C) as [Q|Q]; try reflexivity; exfalso.
  - apply in_map_iff in H. destruct H as (n & <- & Hn). apply Q. rewrite (proj2 (pos_lt Dx n (I n Hn))). exact Hn.
  - apply H. apply in_map_iff. exists (nth a Dx ""). split; [apply pos_nth; auto; lia|exact Q].
Qed.
Lemma axis_positions dims ds : incl ds dims -> mapR (get_axis_num dims) ds = Ok (map (fun n => position String.eqb n dims) ds).
Proof.
  intros I. induction ds as [|n ds IH]; [reflexivity|]. cbn [mapR map]. unfold get_axis_num at 1. assert (S : smem n dims = true) by (apply smem_In, I; now left). rewrite S. cbn [rbind].
  rewrite IH by (intros m Hm; apply I; now right). reflexivity.
Qed.
(* moving the axes of the names C to the end *)
Lemma moved_view Dx C : NoDup Dx -> NoDup C -> incl C Dx -> exists vo,
  view_axes (Some (map Z.of_nat (map (fun n => position String.eqb n Dx) C), axes_last (List.length C))) (List.length Dx) = Ok vo /\ map (fun a => nth a Dx "") vo = (except_name Dx C ++ C)%list.
Proof.
  intros N NC I. eexists. cbn [view_axes]. rewrite <- (map_length (fun n => position String.eqb n Dx) C). rewrite moveaxis_last.
  - split; [reflexivity|]. rewrite map_app, except_positions by auto. f_equal. rewrite map_map. rewrite <- (map_id C) at 2. apply map_ext_in. intros n Hn. apply pos_lt. auto.
  - apply NoDup_map_in; [exact NC|]. intros a b Ha Hb E. rewrite <- (proj2 (pos_lt Dx a (I a Ha))), E. apply pos_lt. auto.
  - intros a Ha. apply in_map_iff in Ha. destruct Ha as (n & <- & Hn). apply pos_lt. auto.
Qed.

Section AlongDim.
  Context {T : Type} (dflt : T) (x : xarr) (md : list sname) (d rd : sname) (axis : marg axis_arg) (dim : marg sname).
  Let dims := x_dims x.
  Let outer := except_name dims (d :: md).
  Let Dx := result_dims false dims d rd md.
  Hypothesis HX : x_ok x.
  Hypothesis NM : NoDup md.
  Hypothesis IM : incl md dims.
  Hypothesis LM : List.length md = 1 \/ List.length md = 2.
  Hypothesis DM : ~ In d md.
  Hypothesis HC : chooses (List.length md) axis dim d x.
  Hypothesis HR : rd = d \/ ~ In rd dims.

  Let Nx : NoDup dims.
  Proof. apply HX. Qed.
  Let Id : In d dims.
  Proof. exact (chooses_dim _ _ _ _ _ HC). Qed.
  Let NDx : NoDup Dx.
  Proof.
    unfold Dx, result_dims. apply NoDup_map_in; [exact Nx|]. intros a b Ha Hb.
    destruct (String.eqb_spec a d) as [->|], (String.eqb_spec b d) as [->|]; try congruence; intros E; subst; destruct HR; congruence.
  Qed.
  Let Nrd : NoDup (rd :: md).
  Proof. constructor; [|exact NM]. destruct HR as [->|H]; [exact DM|]. intros Q. now apply H, IM. Qed.
  Let InDx n : In n Dx <-> (n = rd \/ (In n dims /\ n <> d)).
  Proof.
    unfold Dx, result_dims. rewrite in_map_iff. split.
    - intros (m & <- & Hm). destruct (String.eqb_spec m d); auto.
    - intros [->|[H1 H2]]; [exists d; rewrite String.eqb_refl; auto|]. exists n. destruct (String.eqb_spec n d); tauto.
  Qed.
  Let Ird : incl (rd :: md) Dx.
  Proof. intros n [<-|Hn]; apply InDx; [now left|]. right. split; [now apply IM|]. intros ->. tauto. Qed.
  Lemma calc_dims : except_name Dx (rd :: md) = outer.
  Proof.
    unfold outer, Dx, result_dims. unfold except. rewrite filter_map_swap. 
    rewrite (filter_ext_in _ (fun n => if in_dec string_dec n (d :: md) then false else true)).
    - rewrite <- (map_id (filter _ dims)) at 2. apply map_ext_in. intros n Hn. apply filter_In in Hn. destruct Hn as [_ Hn]. destruct (in_dec string_dec n (d :: md)) as [|Q]; [discriminate|].
      destruct (String.eqb_spec n d) as [->|]; [elim Q; now left|reflexivity].
    - intros n Hn. destruct (String.eqb_spec n d) as [->|Q].
      + destruct (in_dec string_dec rd (rd :: md)) as [_|X]; [|elim X; now left]. destruct (in_dec string_dec d (d :: md)) as [_|X]; [reflexivity|elim X; now left].
      + destruct (in_dec string_dec n (rd :: md)) as [X|X], (in_dec string_dec n (d :: md)) as [Y|Y]; try reflexivity; exfalso; cbn in *.
        * destruct X as [<-|X]; [destruct HR; congruence|tauto].
        * destruct Y as [Y|Y]; [congruence|tauto].
  Qed.
  Lemma calc_NoDup : NoDup (outer ++ rd :: md).
  Proof.
    rewrite <- calc_dims. apply NoDup_app_iff. split; [now apply NoDup_filter|]. split; [exact Nrd|]. intros n Hn. now apply except_name_In in Hn.
  Qed.
  Lemma chosen_moves : rbind (chosen_axis (params_for md) axis dim x) (fun '(a, _) => moves_data (params_for md) a false x) =
    Ok (Some (map Z.of_nat (map (fun n => position String.eqb n Dx) (rd :: md)), axes_last (List.length (rd :: md)))).
  Proof.
    destruct (chooses_select x md axis dim d Nx DM HC) as (a & Ea & Es). unfold chosen_axis. rewrite Es. cbn [rbind]. unfold moves_data, get_axes, axes_last_of, iter_dims. cbn [xp_dims xp_ndim params_for rbind of_opt]. rewrite axis_positions by exact IM. cbn [rbind].
    assert (Pd : position String.eqb rd Dx = a).
    { apply position_unique; [exact NDx|]. unfold Dx, result_dims. unfold dims. rewrite nth_error_map, Ea. cbn. now rewrite String.eqb_refl. }
    assert (Pm : map (fun n => position String.eqb n Dx) md = map (fun n => position String.eqb n dims) md).
    { apply map_ext_in. intros n Hn. apply position_unique; [exact NDx|]. unfold Dx, result_dims. rewrite nth_error_map. rewrite (PropParams.position_nth dims n (IM n Hn)). cbn.
      destruct (String.eqb_spec n d) as [->|]; [tauto|reflexivity]. }
    cbn [map]. rewrite Pd, Pm. fold dims. cbn [List.length]. destruct LM as [L|L]; rewrite L; reflexivity.
  Qed.

  (* a function of the form: calculate; put the axes back; rename *)
  Lemma along_fills (G : res (lgrid T)) (back : lgrid T -> res (lgrid T)) new to_end (F : bool -> res (lgrid T)) :
    (forall g, G = Ok g -> lg_dims g = (outer ++ rd :: md)%list /\ List.length (gshape (lg_val g)) = List.length (lg_dims g) /\ grid_ok (lg_val g)) ->
    (forall g sz, l_named sz (outer ++ rd :: md) g -> exists y, back g = Ok y /\ l_named sz Dx y /\ forall env, inside_names sz (outer ++ rd :: md) env -> l_at dflt y env = l_at dflt g env) ->
    (forall b, F b = rbind G (fun g => rbind (if b then Ok g else back g) (opt_rename d new))) ->
    fills (F to_end) (fun out => along_out dflt (params_for md) axis dim to_end x out (F true)).
  Proof.
    intros HG HB HF y Ey out. unfold along_out.
    assert (RV : forall g z, opt_rename d new g = Ok z -> @lg_val T z = lg_val g).
    { intros g z. unfold opt_rename, l_rename. destruct new as [n|]; [|now intros [= <-]]. destruct (_ && _)%bool; [discriminate|]. now intros [= <-]. }
    rewrite HF in Ey. destruct G as [g|] eqn:EG; [|discriminate]. cbn [rbind] in Ey. destruct (HG g eq_refl) as (Dg & Lg & Gg).
    destruct to_end.
    - cbn [rbind] in Ey. rewrite HF. cbn [rbind]. rewrite Ey. pose proof (RV _ _ Ey) as V.
      assert (X : rbind (chosen_axis (params_for md) axis dim x) (fun '(a, _) => moves_data (params_for md) a true x) = Ok None).
      { destruct (chooses_select x md axis dim d Nx DM HC) as (a & Ea & Es). unfold chosen_axis. now rewrite Es. }
      rewrite X. apply plain_fills. now rewrite V.
    - rewrite chosen_moves. destruct (shaped_named (outer ++ rd :: md) g calc_NoDup Dg Gg) as (sz & Ng); [now rewrite Lg, Dg|].
      destruct (HB g sz Ng) as (y0 & E0 & N0 & A0). rewrite E0 in Ey. cbn [rbind] in Ey.
      assert (RG : exists z, opt_rename d new g = Ok z).
      { revert Ey. unfold opt_rename, l_rename. destruct new as [n|]; [|eauto]. destruct (String.eqb_spec d n) as [->|Q]; cbn [negb andb]; [eauto|].
        destruct (smem n (lg_dims y0)) eqn:S; [discriminate|]. intros _. apply smem_false in S. assert (S' : smem n (lg_dims g) = false).
        { apply smem_false. intros X. apply S. rewrite Dg in X. rewrite (proj1 N0). apply in_app_or in X. destruct X as [X|X]; [rewrite <- calc_dims in X; now apply except_name_In in X|now apply Ird]. }
        rewrite S'. eauto. }
      destruct RG as (z & Ez). rewrite HF. cbn [rbind]. rewrite Ez. rewrite (RV _ _ Ey). pose proof (RV _ _ Ez) as Vz.
      destruct (moved_view Dx (rd :: md) NDx Nrd Ird) as (vo & Ev & Em). rewrite calc_dims in Em.
      pose proof (view_fills dflt sz _ Dx g y0 _ vo NDx Ng N0 A0 Ev Em out) as VF. unfold with_out in *. cbn [rbind] in *. rewrite Vz. exact VF.
  Qed.
  (* the number of rows is that of out *)
  Lemma rows_named sz D (g : lgrid T) c n : NoDup D -> c < List.length D -> nth c D "" = rd -> l_named sz D g ->
    l_named (fun m => if String.eqb m rd then n else sz m) D (LG D (more_rows dflt c n (lg_val g))).
  Proof.
    intros N Hc Ec (_ & Gg & Sg). split; [reflexivity|]. cbn [lg_val]. split; [apply gtabulate_ok|]. unfold more_rows. cbn [gshape gtabulate]. rewrite Sg.
    apply (nth_ext _ _ 0 0); [now rewrite upd_length, !map_length|]. intros k Hk. rewrite upd_length, map_length in Hk. rewrite nth_map_dims by exact Hk.
    rewrite upd_nth, map_length. destruct (Nat.ltb_spec c (List.length D)); [|lia]. destruct (Nat.eqb_spec c k) as [<-|Q].
    - now rewrite Ec, String.eqb_refl.
    - rewrite nth_map_dims by exact Hk. destruct (String.eqb_spec (nth k D "") rd) as [E|_]; [|reflexivity]. elim Q. rewrite <- Ec in E. exact (proj1 (NoDup_nth D "") N c k Hc Hk (eq_sym E)).
  Qed.
  Lemma rows_at sz D (g : lgrid T) c n : NoDup D -> c < List.length D -> nth c D "" = rd -> l_named sz D g -> forall env, inside_names (fun m => if String.eqb m rd then n else sz m) D env ->
    l_at dflt (LG D (more_rows dflt c n (lg_val g))) env = if Nat.ltb (env rd) (sz rd) then l_at dflt g env else dflt.
  Proof.
    intros N Hc Ec Ng env He. pose proof (rows_named sz D g c n N Hc Ec Ng) as (_ & _ & S). cbn [lg_val] in S. destruct Ng as (Dg & Gg & Sg). unfold l_at. cbn [lg_dims lg_val]. unfold more_rows in *. cbn [gshape gtabulate] in S.
    rewrite gget_gtabulate. 2:{ rewrite S. now apply inside_names_valid. }
    rewrite Sg, !nth_map_dims, Ec by exact Hc. now rewrite Dg.
  Qed.
  (* the calculated g and the result y, with their rows along axes c and k *)
  Lemma rows_filled (m : nat) (g gz y : lgrid T) moves c k : xp_ndim (params_for md) = Some (Z.of_nat m) -> lg_val gz = lg_val g -> List.length (lg_dims gz) - 1 - m = c ->
    c < List.length (gshape (lg_val g)) -> k < List.length (gshape (lg_val y)) -> nth c (gshape (lg_val g)) 0 = nth k (gshape (lg_val y)) 0 ->
    (forall n out, (gshape out = upd (gshape (lg_val y)) k n -> with_out dflt (Ok moves) out (Ok (LG [] (more_rows dflt c n (lg_val g)))) = Ok (more_rows dflt k n (lg_val y))) /\
      (gshape out <> upd (gshape (lg_val y)) k n -> with_out dflt (Ok moves) out (Ok (LG [] (more_rows dflt c n (lg_val g)))) = Raise EValue)) ->
    forall out, let s := gshape (lg_val y) in
    (forall n, gshape out = (firstn k s ++ n :: skipn (S k) s)%list ->
      (n < nth k s 0 -> grouped_into dflt (params_for md) (Ok moves) out (Ok gz) = Raise EAssert) /\
      (nth k s 0 <= n -> exists o, grouped_into dflt (params_for md) (Ok moves) out (Ok gz) = Ok o /\ grid_ok o /\ gshape o = gshape out /\
        forall i, Forall2 (fun n j => j < n) (gshape out) i -> gget dflt o i = if Nat.ltb (nth k i 0) (nth k s 0) then gget dflt (lg_val y) i else dflt)) /\
    ((forall n, gshape out <> (firstn k s ++ n :: skipn (S k) s)%list) -> grouped_into dflt (params_for md) (Ok moves) out (Ok gz) = Raise EValue).
  Proof.
    intros Em Vz Lc Hc Hk Ec HW out s. assert (U : forall n, (firstn k s ++ n :: skipn (S k) s)%list = upd s k n).
    { intros n. clear - Hk. fold s in Hk. revert k Hk. induction s as [|a l IH]; intros [|k] Hk; cbn in *; [lia|lia|reflexivity|]. f_equal. apply IH. lia. }
    unfold grouped_into. rewrite Em, Nat2Z.id. cbn [rbind]. rewrite Lc, Vz. split.
    - intros n Hn. rewrite U in Hn. destruct (HW n out) as [H _]. specialize (H Hn). unfold with_out in H. cbn [rbind] in H. destruct (view_axes moves (List.length (gshape out))) as [o|]; [|discriminate H]. cbn [rbind lg_val] in *.
      assert (En : nth c (map (fun a => nth a (gshape out) 0) o) 0 = n).
      { unfold write_view in H. destruct (list_eq_dec _ _ _) as [Q|]; [|discriminate H]. rewrite Q. unfold more_rows. cbn [gshape gtabulate]. rewrite upd_nth, Nat.eqb_refl. destruct (Nat.ltb_spec c (List.length (gshape (lg_val g)))); [reflexivity|lia]. }
      rewrite En, H, Ec. cbn [rbind]. fold s. destruct (Nat.ltb_spec n (nth k s 0)); (split; [|]); try lia; [reflexivity|]. intros _. eexists. split; [reflexivity|]. split; [apply gtabulate_ok|]. split; [now rewrite Hn|].
      intros i Hi. unfold more_rows. fold s. apply gget_gtabulate. rewrite <- Hn. exact Hi.
    - intros Hn. destruct (view_axes moves (List.length (gshape out))) as [o|e] eqn:Eo; cbn [rbind]; [|now rewrite (view_axes_err _ _ _ Eo)].
      destruct (HW (nth c (map (fun a => nth a (gshape out) 0) o) 0) out) as [_ H]. specialize (Hn (nth c (map (fun a => nth a (gshape out) 0) o) 0)). rewrite U in Hn. specialize (H Hn). unfold with_out in H. cbn [rbind lg_val] in H. rewrite Eo in H. cbn [rbind lg_val] in H. now rewrite H.
  Qed.
  Lemma along_rows (G : res (lgrid T)) (back : lgrid T -> res (lgrid T)) new to_end (F : bool -> res (lgrid T)) : rd = d ->
    (forall g, G = Ok g -> lg_dims g = (outer ++ rd :: md)%list /\ List.length (gshape (lg_val g)) = List.length (lg_dims g) /\ grid_ok (lg_val g)) ->
    (forall g sz, l_named sz (outer ++ rd :: md) g -> exists y, back g = Ok y /\ l_named sz Dx y /\ forall env, inside_names sz (outer ++ rd :: md) env -> l_at dflt y env = l_at dflt g env) ->
    (forall b, F b = rbind G (fun g => rbind (if b then Ok g else back g) (opt_rename d new))) ->
    fills_rows dflt (position String.eqb (match new with Some n => n | None => d end)) (F to_end)
      (fun out => grouped_into dflt (params_for md) (rbind (chosen_axis (params_for md) axis dim x) (fun '(a, _) => moves_data (params_for md) a to_end x)) out (F true)).
  Proof.
    intros Erd HG HB HF y Ey out.
    assert (RV : forall g z, opt_rename d new g = Ok z -> @lg_val T z = lg_val g /\ List.length (lg_dims z) = List.length (lg_dims g)).
    { intros g z. unfold opt_rename, l_rename. destruct new as [n|]; [|now intros [= <-]]. destruct (_ && _)%bool; [discriminate|]. intros [= <-]. cbn. now rewrite map_length. }
    assert (RP : forall g z, opt_rename d new g = Ok z -> NoDup (lg_dims g) -> In d (@lg_dims T g) -> position String.eqb (match new with Some n => n | None => d end) (lg_dims z) = position String.eqb d (lg_dims g)).
    { intros g z. unfold opt_rename, l_rename. destruct new as [n|]; [|now intros [= <-]]. destruct (negb (String.eqb d n) && smem n (lg_dims g))%bool eqn:Q; [discriminate|]. intros [= <-] N I. cbn [lg_dims]. destruct (pos_lt _ _ I) as [L1 L2].
      apply position_unique.
      - apply NoDup_map_in; [exact N|]. intros a b Ha Hb. destruct (String.eqb_spec a d) as [->|], (String.eqb_spec b d) as [->|]; try congruence; intros <-.
        + apply andb_false_iff in Q. destruct Q as [Q|Q]; [apply negb_false_iff, String.eqb_eq in Q; congruence|]. apply smem_false in Q. tauto.
        + apply andb_false_iff in Q. destruct Q as [Q|Q]; [apply negb_false_iff, String.eqb_eq in Q; congruence|]. apply smem_false in Q. tauto.
      - rewrite nth_error_map, (nth_error_nth' (lg_dims g) "" L1), L2. cbn. now rewrite String.eqb_refl. }
    assert (Xm : xp_ndim (params_for md) = Some (Z.of_nat (List.length md))) by reflexivity.
    rewrite HF in Ey. destruct G as [g|] eqn:EG; [|discriminate Ey]. cbn [rbind] in Ey. destruct (HG g eq_refl) as (Dg & Lg & Gg). pose proof calc_NoDup as ND.
    destruct (shaped_named (outer ++ rd :: md) g ND Dg Gg) as (sz & Ng); [now rewrite Lg, Dg|]. pose proof Ng as (_ & _ & Sg).
    set (D := (outer ++ rd :: md)%list) in *. set (c := List.length outer).
    assert (Hc : c < List.length D) by (unfold D, c; rewrite app_length; cbn; lia). assert (Ec : nth c D "" = rd) by (unfold D, c; now rewrite app_nth2, Nat.sub_diag by lia).
    assert (Cc : forall L, L = List.length D -> L - 1 - List.length md = c) by (intros L ->; unfold D, c; rewrite app_length; cbn; lia).
    assert (Pc : position String.eqb d D = c) by (apply position_unique; [exact ND|]; rewrite <- Erd, <- Ec at 1; now apply nth_error_nth').
    assert (Id' : In d D) by (rewrite <- Erd; apply in_or_app; right; now left).
    destruct to_end.
    - cbn [rbind] in Ey. rewrite HF. cbn [rbind]. rewrite Ey. destruct (RV _ _ Ey) as [V1 V2]. cbv zeta. rewrite (RP _ _ Ey) by (rewrite Dg; assumption). rewrite Dg, Pc, V1.
      assert (X : rbind (chosen_axis (params_for md) axis dim x) (fun '(a, _) => moves_data (params_for md) a true x) = Ok None).
      { destruct (chooses_select x md axis dim d Nx DM HC) as (a & Ea & Es). unfold chosen_axis. now rewrite Es. }
      rewrite X. apply (rows_filled (List.length md) g y g None c c Xm V1); [apply Cc; now rewrite V2, Dg|rewrite Lg, Dg; exact Hc|rewrite Lg, Dg; exact Hc|reflexivity|].
      intros n o. exact (plain_fills dflt (LG [] (more_rows dflt c n (lg_val g))) (gtabulate_ok _ _) o).
    - rewrite chosen_moves. destruct (HB g sz Ng) as (y0 & E0 & N0 & A0). rewrite E0 in Ey. cbn [rbind] in Ey. pose proof N0 as (Dy & Gy & Sy).
      assert (RG : exists z, opt_rename d new g = Ok z).
      { revert Ey. unfold opt_rename, l_rename. destruct new as [n|]; [|eauto]. destruct (String.eqb_spec d n) as [->|Q]; cbn [negb andb]; [eauto|].
        destruct (smem n (lg_dims y0)) eqn:S; [discriminate|]. intros _. apply smem_false in S. assert (S' : smem n (lg_dims g) = false).
        { apply smem_false. intros X. apply S. rewrite Dg in X. rewrite Dy. apply in_app_or in X. destruct X as [X|X]; [rewrite <- calc_dims in X; now apply except_name_In in X|now apply Ird]. }
        rewrite S'. eauto. }
      destruct RG as (z & Ez). rewrite HF. cbn [rbind]. rewrite Ez. destruct (RV _ _ Ez) as [V1 V2]. cbv zeta. destruct (RV _ _ Ey) as [W1 W2]. 
      assert (Idx : In d Dx) by (rewrite <- Erd; apply Ird; now left). rewrite (RP _ _ Ey) by (rewrite Dy; assumption). rewrite Dy, W1. destruct (pos_lt _ _ Idx) as [K1 K2]. set (k := position String.eqb d Dx) in *.
      destruct (moved_view Dx (rd :: md) NDx Nrd Ird) as (vo & Ev & Evm). rewrite calc_dims in Evm. fold D in Evm.
      apply (rows_filled (List.length md) g z y0 _ c k Xm V1); [apply Cc; now rewrite V2, Dg|rewrite Lg, Dg; exact Hc|rewrite Sy, map_length; exact K1|rewrite Sg, Sy, !nth_map_dims by assumption; now rewrite Ec, K2, Erd|].
      rewrite <- Erd in K2. intros n o.
      assert (At : forall env, inside_names (fun m => if String.eqb m rd then n else sz m) D env -> l_at dflt (LG Dx (more_rows dflt k n (lg_val y0))) env = l_at dflt (LG D (more_rows dflt c n (lg_val g))) env).
      2:{ pose proof (view_fills dflt (fun m => if String.eqb m rd then n else sz m) D Dx (LG D (more_rows dflt c n (lg_val g))) (LG Dx (more_rows dflt k n (lg_val y0))) _ vo NDx
            (rows_named sz D g c n ND Hc Ec Ng) (rows_named sz Dx y0 k n NDx K1 K2 N0) At Ev Evm o) as VF. unfold with_out in *. cbn [rbind lg_val] in *. exact VF. }
      intros env He. rewrite (rows_at sz D g c n ND Hc Ec Ng env He). rewrite (rows_at sz Dx y0 k n NDx K1 K2 N0 env).
      + destruct (Nat.ltb_spec (env rd) (sz rd)); [|reflexivity]. apply A0. intros q Hq. specialize (He q Hq). cbv beta in He. destruct (String.eqb_spec q rd) as [Q|]; [now rewrite Q|assumption].
      + intros q Hq. apply He. destruct (in_dec string_dec q (rd :: md)) as [I|I]; apply in_or_app; [now right|]. left. rewrite <- calc_dims. apply except_name_In. auto.
  Qed.
End AlongDim.

(* ---- reduce_data ------------------------------------------------------------------------------------ *)

Lemma expand_whole R t : NoDup R -> (forall a, In a R -> a < tndim t + List.length R) -> tensor_ok t -> tensor_ok (expand_dims R t).
Proof.
  intros N B H. set (n := tndim t + List.length R) in *. set (ax := except_nat (seq 0 n) R).
  assert (La : List.length ax = tndim t).
  { pose proof (except_length (seq 0 n) R (seq_NoDup _ _) N) as E. rewrite seq_length in E. fold ax in E. rewrite <- (Nat.add_cancel_r _ _ (List.length R)). apply E. intros a Ha. apply in_seq. specialize (B a Ha). lia. }
  assert (Nax : NoDup ax) by (apply NoDup_filter, seq_NoDup).
  assert (Es : tshape t = map (fun a => nth (index_of a ax) (tshape t) 0) ax).
  { apply (nth_ext _ _ 0 0); [rewrite map_length; now rewrite La|]. intros k Hk. fold (tndim t) in Hk. rewrite (nth_indep (map _ ax) 0 (nth (index_of 0 ax) (tshape t) 0)) by (rewrite map_length; lia).
    rewrite (map_nth (fun a => nth (index_of a ax) (tshape t) 0)), index_of_nth by (auto; lia). reflexivity. }
  unfold tensor_ok, expand_dims in *. cbn [tshape tdata]. rewrite H. fold n. rewrite Es. unfold ax. rewrite expand_shape_spec, expand_size. reflexivity.
Qed.
Lemma reduce_whole {A V} (K : pusher A V) (P : packer A) mom ax keepdims t g : ax <> [] -> rmap to_grid (reduce_data_nd K P mom (Some ax) keepdims false t) = Ok g -> grid_ok g.
Proof.
  intros Ne E. apply rmap_inv in E. destruct E as (r & E & ->). unfold reduce_data_nd in E. destruct (normalize_axis_tuple _ _ _ _) as [m|]; [|discriminate]. cbn [rbind] in E.
  destruct (normalize_axis_tuple (Some ax) _ _ _) as [axes|] eqn:Ea; [|discriminate]. cbn [rbind] in E.
  apply normalize_tuple_ok in Ea. destruct Ea as [F Na]. destruct axes as [|a axes]; [inversion F; congruence|]. set (R := a :: axes) in *.
  assert (BR : forall b, In b R -> b < tndim t).
  { clear - F. induction F as [|z b l R H F IH]; intros c Hc; [destruct Hc|]. destruct Hc as [<-|Hc]; [|auto]. destruct z; unfold names_axis, is_axis in H; lia. }
  assert (LR : List.length R <= tndim t).
  { rewrite <- (seq_length (tndim t) 0). apply NoDup_incl_length; [exact Na|]. intros b Hb. apply in_seq. specialize (BR b Hb). lia. }
  destruct (moveaxis_order _ _ _) as [order|] eqn:Eo; [|discriminate]. cbn [rbind] in E.
  pose proof (Permutation_length (view_axes_ok (Some (map Z.of_nat R, axes_last (List.length R))) _ _ Eo)) as Lo. rewrite seq_length in Lo.
  destruct (gufunc_reduce _ _ _ _) as [out|] eqn:Eg; [|discriminate]. cbn [rbind] in E. injection E as <-.
  unfold gufunc_reduce in Eg. destruct (existsb _ _); [discriminate|]. destruct (mapR _ _); [|discriminate]. cbn [rbind] in Eg. injection Eg as <-.
  match goal with |- context [tabulate ?s ?f] => set (o := tabulate s f); assert (Ho : tensor_ok o) by apply tabulate_ok; assert (Lo' : tndim o = tndim t - List.length R) end.
  { unfold o, tndim at 1. cbn [tabulate tshape]. rewrite firstn_length. unfold tndim. cbn [merge_last tshape]. rewrite app_length. cbn [List.length]. rewrite firstn_length. unfold tndim, ttranspose. cbn [tabulate tshape]. rewrite map_length. unfold tndim in *. unfold R in *. cbn [List.length] in *. rewrite app_length, firstn_length, map_length. cbn [List.length]. lia. }
  destruct keepdims; [|exact Ho]. apply expand_whole; [exact Na| |exact Ho]. intros b Hb. specialize (BR b Hb). lia.
Qed.

Section Reduce.
  Context {A V : Type} (K : pusher A V) (P : packer A) (x : xarr) (md ds : list sname) (axis : marg (list axis_arg)) (dim : marg dims_arg) (keepdims : bool).
  Let dims := x_dims x.
  Let outer := except_name dims (ds ++ md).
  Let core := if keepdims then (ds ++ md)%list else md.
  Let Dx := if keepdims then dims else except_name dims ds.
  Hypothesis HM : has_moments md x.
  Hypothesis HC : chooses_many md axis dim ds x.

  Let HX : x_ok x.
  Proof. apply HM. Qed.
  Let Nx : NoDup dims.
  Proof. apply HX. Qed.
  Let NDx : NoDup Dx.
  Proof. unfold Dx. destruct keepdims; [exact Nx|now apply NoDup_filter]. Qed.
  Let Ncore : NoDup core.
  Proof.
    destruct HC as (I & N & _ & D & _). unfold core. destruct keepdims; [|apply HM]. apply NoDup_app_iff. split; [exact N|]. split; [apply HM|exact D].
  Qed.
  Let Icore : incl core Dx.
  Proof.
    destruct HC as (I & N & _ & D & _). assert (IM : incl md dims) by apply HM. unfold core, Dx. destruct keepdims; [now apply incl_app|]. intros n Hn. apply except_name_In. split; [now apply IM|]. intros Q. exact (D n Q Hn).
  Qed.
  Lemma reduce_outer : except_name Dx core = outer.
  Proof. unfold Dx, core, outer. destruct keepdims; [reflexivity|]. apply except_twice. Qed.
  Lemma reduce_NoDup : NoDup (outer ++ core).
  Proof. rewrite <- reduce_outer. apply NoDup_app_iff. split; [now apply NoDup_filter|]. split; [exact Ncore|]. intros n Hn. now apply except_name_In in Hn. Qed.
  Lemma reduce_same n : In n Dx <-> In n (outer ++ core).
  Proof.
    rewrite in_app_iff, <- reduce_outer, except_name_In. split; [intros Hn; destruct (in_dec string_dec n core); auto|]. intros [[H _]|H]; [exact H|now apply Icore].
  Qed.
  (* the result in the order of the calculation and in the order asked for *)
  Lemma reduce_cases : 
    (exists e, forall to_end, x_reduce_data K P (params_for md) axis dim keepdims to_end x = Raise e) \/
    exists sz gT gF, x_reduce_data K P (params_for md) axis dim keepdims true x = Ok gT /\ x_reduce_data K P (params_for md) axis dim keepdims false x = Ok gF /\
      l_named sz (outer ++ core) gT /\ l_named sz Dx gF /\ forall env, inside_names sz (outer ++ core) env -> l_at 0%Qc gF env = l_at 0%Qc gT env.
  Proof.
    destruct (chooses_many_select x md axis dim ds Nx HC) as (axes & E). pose proof HC as (I & N & Ne & D & _).
    set (G := apply_ufunc [(Labelled x, (ds ++ md)%list)] core ds (fun ts => rmap to_grid (reduce_data_nd K P (axes_last (List.length md))
      (Some (map (fun i => AInt (Z.of_nat i - Z.of_nat (List.length ds) - Z.of_nat (List.length md))) (seq 0 (List.length ds)))) keepdims false (arg 0 ts)))).
    assert (EF : forall b, x_reduce_data K P (params_for md) axis dim keepdims b x = rbind G (fun g => if b then l_transpose 0%Qc (None :: map Some core) g else transpose_like 0%Qc dims (fun n => n) (if keepdims then [] else ds) [] g)).
    { intros b. unfold x_reduce_data. rewrite E. cbn [rbind]. unfold core_dims, iter_dims. cbn [params_for xp_dims xp_ndim rbind of_opt].
      assert (AA : array_axes (params_for md) = Ok (axes_last (List.length md))).
      { unfold array_axes, x_to_array, get_axes. cbn [params_for xp_ndim rbind]. destruct HM as (_ & _ & [L|L] & _); rewrite L; reflexivity. }
      rewrite AA. cbn [rbind]. reflexivity. }
    destruct G as [g|e] eqn:EG; [right|left; exists e; intros b; now rewrite EF].
    apply apply_ufunc_dims in EG; [|cbn; constructor; [exact HX|constructor]]. destruct EG as (Dg & Lg & ts & Fg). cbn [map fst labelled_of flat_map snd] in Dg. rewrite !app_nil_r in Dg.
    assert (OD : outer_dims ds ((ds ++ md) ++ core) ([x] ++ []) = outer).
    { cbn [app]. rewrite outer_first; [|exact Nx|intros n Hn; rewrite !in_app_iff; auto|intros n []].
      apply except_ext. intros n _. rewrite in_app_iff. split; [|auto]. intros [Q|Q]; [exact Q|]. unfold core in Q. destruct keepdims; [exact Q|]. apply in_or_app. auto. }
    change (([x] ++ [])%list) with [x] in OD. rewrite OD in Dg.
    assert (Gg : grid_ok (lg_val g)) by (apply (reduce_whole K P _ _ _ _ _) in Fg; [exact Fg|destruct ds; [congruence|discriminate]]).
    destruct (shaped_named (outer ++ core) g reduce_NoDup Dg Gg) as (sz & Ng); [now rewrite Lg, Dg|]. exists sz.
    destruct (l_transpose_ok 0%Qc (None :: map Some core) sz (outer ++ core) (outer ++ core) g Ng reduce_NoDup) as (gT & ET & NT & _ & AT).
    { cbn [filter]. rewrite known_some, filter_all by (intros n Hn; apply smem_In, in_or_app; auto). rewrite infix_front by (auto; apply incl_appr, incl_refl). f_equal. f_equal.
      rewrite except_app. rewrite <- (app_nil_r outer) at 2. f_equal; [|apply filter_none; intros n Hn; now destruct (in_dec string_dec n core)].
      apply filter_all. intros n Hn. rewrite <- reduce_outer in Hn. apply except_name_In in Hn. destruct (in_dec string_dec n core); tauto. }
    assert (FL : filter (fun n => smem n (outer ++ core)) (map (fun n => n) (except_name dims (if keepdims then [] else ds)) ++ []) = Dx).
    { rewrite app_nil_r, map_id. assert (X : except_name dims (if keepdims then [] else ds) = Dx) by (unfold Dx; destruct keepdims; [unfold except; now apply filter_all|reflexivity]). rewrite X. apply filter_all. intros n Hn. now apply smem_In, reduce_same. }
    destruct (transpose_like_ok 0%Qc dims (fun n => n) (if keepdims then [] else ds) [] sz (outer ++ core) g Ng reduce_NoDup) as (gF & E1 & NF & AF); [cbv zeta; now rewrite FL|]. cbv zeta in NF. rewrite FL in NF.
    assert (X : except_name (outer ++ core) Dx = []) by (apply filter_none; intros n Hn; apply reduce_same in Hn; destruct (in_dec _ _ _); tauto). rewrite X in NF. cbn [app] in NF.
    exists gT, gF. rewrite !EF. cbn [rbind]. rewrite ET, E1. split; [reflexivity|]. split; [reflexivity|]. split; [exact NT|]. split; [exact NF|]. intros env He. now rewrite AT, AF.
  Qed.
  Theorem reduce_fills to_end : fills (x_reduce_data K P (params_for md) axis dim keepdims to_end x) (x_reduce_data_out K P (params_for md) axis dim keepdims to_end x).
  Proof.
    intros y Ey out. destruct reduce_cases as [(e & X)|(sz & gT & gF & ET & EF & NT & NF & At)]; [rewrite X in Ey; discriminate|].
    destruct (chooses_many_select x md axis dim ds Nx HC) as (axes & Es). unfold x_reduce_data_out. rewrite Es. cbn [rbind].
    assert (Ne : ds <> []) by apply HC. rewrite ET. assert (HD : forall Z (a b : Z), match ds with [] => a | _ :: _ => b end = b) by (clear - Ne; intros; destruct ds; [congruence|reflexivity]). rewrite HD.
    destruct to_end; [rewrite ET in Ey; injection Ey as <-; cbn [moves_reduce]; apply plain_fills, NT|]. rewrite EF in Ey. injection Ey as <-.
    destruct (moved_view Dx core NDx Ncore Icore) as (vo & Ev & Em). rewrite reduce_outer in Em.
    assert (Mv : moves_reduce (params_for md) ds keepdims false x = Ok (Some (map Z.of_nat (map (fun n => position String.eqb n Dx) core), axes_last (List.length core)))).
    { unfold moves_reduce, get_axes, iter_dims. cbn [params_for xp_dims xp_ndim rbind of_opt]. clear Ev Em. unfold core, Dx in *. destruct keepdims.
      - rewrite axis_positions by apply HC. cbn [rbind]. rewrite axis_positions by apply HM. cbn [rbind]. rewrite Nat2Z.id, app_length, map_app, map_app. reflexivity.
      - rewrite filter_names. rewrite axis_positions by exact Icore. cbn [rbind]. unfold axes_last_of. destruct HM as (_ & _ & [L|L] & _); rewrite L; reflexivity. }
    rewrite Mv. exact (view_fills 0%Qc sz _ Dx gT gF _ vo NDx NT NF At Ev Em out).
  Qed.
End Reduce.

(* the array passed as x, its moment names and the dimension acted on *)
Section DataFunctions.
  Context {A V : Type} (K : pusher A V) (P : packer A) (x : xarr) (md : list sname) (d : sname) (axis : marg axis_arg) (dim : marg sname).
  Let dims := x_dims x.
  Let outer := except_name dims (d :: md).
  Hypothesis HM : has_moments md x.
  Hypothesis DM : ~ In d md.
  Hypothesis HC : chooses (List.length md) axis dim d x.

  Let HX : x_ok x.
  Proof. apply HM. Qed.
  Let NM : NoDup md.
  Proof. apply HM. Qed.
  Let LM : List.length md = 1 \/ List.length md = 2.
  Proof. apply HM. Qed.
  Let IM : incl md dims.
  Proof. apply HM. Qed.
  Let Nx : NoDup dims.
  Proof. apply HX. Qed.
  Let Id : In d dims.
  Proof. exact (chooses_dim _ _ _ _ _ HC). Qed.

  (* what apply_ufunc gives *)
  Lemma calc_named {T} (others : list (xop * list sname)) rd excl (f : list tensor -> res (grid T)) : rd = d \/ ~ In rd dims -> incl excl (d :: md) ->
    Forall x_ok (labelled_of (map fst others)) -> incl (flat_map snd others) (rd :: d :: md) -> (forall n, In n (flat_map x_dims (labelled_of (map fst others))) -> In n (rd :: dims)) ->
    (forall ts g, f ts = Ok g -> grid_ok g) ->
    forall g, apply_ufunc ((Labelled x, d :: md) :: others) (rd :: md) excl f = Ok g ->
      lg_dims g = (outer ++ rd :: md)%list /\ List.length (gshape (lg_val g)) = List.length (lg_dims g) /\ grid_ok (lg_val g).
  Proof.
    intros HR IE FO IO ID W g E. apply apply_ufunc_dims in E; [|cbn [map fst labelled_of flat_map app]; constructor; [exact HX|exact FO]]. destruct E as (E & L & ts & F). split; [|split; [exact L|exact (W _ _ F)]].
    rewrite E. f_equal. cbn [map fst labelled_of flat_map snd]. cbn [app]. rewrite outer_first.
    - apply except_ext. intros n Hn. fold dims in Hn. split.
      + intros [<-|Q]; [now left|]. rewrite !in_app_iff in Q. destruct Q as [[Q|Q]|[<-|Q]]; [now right| |destruct HR as [->|HR]; [now left|tauto]|now right]. apply IO in Q. destruct Q as [<-|Q]; [|exact Q]. destruct HR as [->|HR]; [now left|tauto].
      + intros [<-|Q]; [now left|right]. rewrite !in_app_iff. auto.
    - exact Nx.
    - intros n Hn. apply IE in Hn. destruct Hn as [<-|Hn]; [now left|right]. rewrite !in_app_iff. auto.
    - intros n Hn. apply ID in Hn. destruct Hn as [<-|Hn]; [|now left]. right. right. apply in_or_app. right. now left.
  Qed.
  (* transposing back *)
  Lemma back_again {T} (dflt : T) rd : rd = d \/ ~ In rd dims -> forall g sz, l_named sz (outer ++ rd :: md) g ->
    exists y, transpose_like dflt dims (fun n => if String.eqb n d then rd else n) [] [] g = Ok y /\ l_named sz (result_dims false dims d rd md) y /\
      forall env, inside_names sz (outer ++ rd :: md) env -> l_at dflt y env = l_at dflt g env.
  Proof.
    intros HR g sz Ng. assert (N : NoDup (outer ++ rd :: md)) by (eapply calc_NoDup; eassumption). assert (CD : except_name (result_dims false dims d rd md) (rd :: md) = outer) by (eapply calc_dims; eassumption).
    set (Dx := result_dims false dims d rd md). assert (NDx : NoDup Dx) by (apply NoDup_map_in; [exact Nx|]; intros a b Ha Hb; destruct (String.eqb_spec a d) as [->|], (String.eqb_spec b d) as [->|]; try congruence; intros E; subst; destruct HR; congruence).
    assert (Same : forall n, In n Dx -> In n (outer ++ rd :: md)).
    { intros n Hn. destruct (in_dec string_dec n (rd :: md)) as [Q|Q]; [apply in_or_app; now right|]. apply in_or_app. left. rewrite <- CD. apply except_name_In. auto. }
    assert (FL : filter (fun n => smem n (outer ++ rd :: md)) (map (fun n => if String.eqb n d then rd else n) (except_name dims []) ++ []) = Dx).
    { rewrite app_nil_r. unfold except. rewrite (filter_all _ dims) by (intros; reflexivity). apply filter_all. intros n Hn. now apply smem_In, Same. }
    destruct (transpose_like_ok dflt dims (fun n => if String.eqb n d then rd else n) [] [] sz (outer ++ rd :: md) g Ng N) as (g' & E & G' & F); [cbv zeta; now rewrite FL|].
    cbv zeta in G'. rewrite FL in G'. exists g'. split; [exact E|]. split; [|exact F].
    assert (X : except_name (outer ++ rd :: md) Dx = []).
    { apply filter_none. intros n Hn. destruct (in_dec _ n Dx) as [|Q]; [reflexivity|]. elim Q. unfold Dx, result_dims. apply in_map_iff. apply in_app_or in Hn. destruct Hn as [Hn|[<-|Hn]].
      - apply except_name_In in Hn. exists n. destruct (String.eqb_spec n d) as [->|]; [destruct Hn as [_ Hn]; elim Hn; now left|tauto].
      - exists d. now rewrite String.eqb_refl.
      - exists n. destruct (String.eqb_spec n d) as [->|]; [tauto|]. split; [reflexivity|now apply IM]. }
    rewrite X in G'. exact G'.
  Qed.
  Lemma finish_again {T} (dflt : T) : forall g sz, l_named sz (outer ++ d :: md) g ->
    exists y, finish dflt false x g = Ok y /\ l_named sz (result_dims false dims d d md) y /\ forall env, inside_names sz (outer ++ d :: md) env -> l_at dflt y env = l_at dflt g env.
  Proof.
    intros g sz Ng. destruct (back_again dflt d (or_introl eq_refl) g sz Ng) as (y & E & H). exists y. split; [|exact H]. rewrite <- E. unfold finish, transpose_like. fold dims.
    rewrite (map_ext (fun n => if String.eqb n d then d else n) (fun n => n)) by (intros n; destruct (String.eqb_spec n d); congruence). reflexivity.
  Qed.
  Lemma finish_rename {T} (dflt : T) G b new : rbind G (fun g => rbind (finish dflt b x g) (opt_rename d new)) = rbind G (fun g => rbind (if b then Ok g else finish dflt false x g) (opt_rename d new)).
  Proof. destruct G; [|reflexivity]. cbn [rbind]. now destruct b. Qed.
  Lemma finish_only {T} (dflt : T) G b : rbind G (fun g => finish dflt b x g) = rbind G (fun g => rbind (if b then Ok g else finish dflt false x g) (opt_rename d None)).
  Proof. destruct G as [g|]; [|reflexivity]. cbn [rbind]. destruct b; [reflexivity|]. now destruct (finish dflt false x g). Qed.

  Ltac at_dim := match goal with |- with_dim _ _ _ _ ?f = _ => let a := fresh "a" in let Ea := fresh "Ea" in destruct (with_dim_eq x md axis dim d f Nx DM LM HC) as (a & Ea & ->) end.
  Notation ax := (AInt (- (Z.of_nat (List.length md) + 1))).
  Notation mom := (axes_last (List.length md)).

  Theorem cumulative_fills inverse to_end :
    fills (x_cumulative K P (params_for md) inverse axis dim to_end x) (x_cumulative_out K P (params_for md) inverse axis dim to_end x).
  Proof.
    apply (along_fills 0%Qc x md d d axis dim HX NM IM LM DM HC (or_introl eq_refl)
      (apply_ufunc [(Labelled x, d :: md)] (d :: md) [] (fun ts => rmap to_grid (cumulative_nd K P inverse ax mom false (arg 0 ts))))
      (finish 0%Qc false x) None to_end (fun b => x_cumulative K P (params_for md) inverse axis dim b x)); [|apply finish_again|].
    - apply calc_named; [now left|intros n []|constructor|intros n []|intros n []|]. intros ts g. apply cumulative_whole.
    - intros b. unfold x_cumulative. at_dim. apply finish_only.
  Qed.
  Theorem grouped_fills by_ group_dim to_end :
    fills_rows 0%Qc (position String.eqb (match group_dim with Some g => g | None => d end)) (x_reduce_data_grouped K P (params_for md) by_ group_dim axis dim to_end x)
      (x_reduce_data_grouped_out K P (params_for md) by_ group_dim axis dim to_end x).
  Proof.
    apply (along_rows 0%Qc x md d d axis dim HX NM IM LM DM HC (or_introl eq_refl)
      (apply_ufunc [(Labelled x, d :: md)] (d :: md) [d] (fun ts => rmap to_grid (reduce_data_grouped_nd K P by_ ax mom false (arg 0 ts))))
      (finish 0%Qc false x) group_dim to_end (fun b => x_reduce_data_grouped K P (params_for md) by_ group_dim axis dim b x) eq_refl); [|apply finish_again|].
    - apply calc_named; [now left|intros n [<-|[]]; now left|constructor|intros n []|intros n []|]. intros ts g. apply grouped_whole.
    - intros b. unfold x_reduce_data_grouped. at_dim. apply finish_rename.
  Qed.
  Theorem indexed_fills index start end_ scale group_dim to_end :
    fills (x_reduce_data_indexed K P (params_for md) index start end_ scale group_dim axis dim to_end x)
      (x_reduce_data_indexed_out K P (params_for md) index start end_ scale group_dim axis dim to_end x).
  Proof.
    apply (along_fills 0%Qc x md d d axis dim HX NM IM LM DM HC (or_introl eq_refl)
      (rbind (sizes (x_dims x) (x_shape x) d) (fun n => rbind (validate_index n index start end_) (fun _ =>
        apply_ufunc [(Labelled x, d :: md)] (d :: md) [d] (fun ts => rmap to_grid (reduce_data_indexed_nd K P index start end_ scale ax mom false (arg 0 ts))))))
      (finish 0%Qc false x) group_dim to_end (fun b => x_reduce_data_indexed K P (params_for md) index start end_ scale group_dim axis dim b x)); [|apply finish_again|].
    - intros g. destruct (sizes _ _ _); [|discriminate]. cbn [rbind]. destruct (validate_index _ _ _ _); [|discriminate]. cbn [rbind].
      apply (calc_named []); [now left|intros n [<-|[]]; now left|constructor|intros n []|intros n []|]. intros ts g'. apply indexed_whole.
    - intros b. unfold x_reduce_data_indexed. at_dim. destruct (sizes _ _ _); [|reflexivity]. cbn [rbind]. destruct (validate_index _ _ _ _); [|reflexivity]. cbn [rbind]. apply finish_rename.
  Qed.
  Theorem rolling_fills window min_periods zero to_end :
    fills (x_rolling_data K P (params_for md) window min_periods false zero axis dim to_end x) (x_rolling_data_out K P (params_for md) window min_periods false zero axis dim to_end x).
  Proof.
    intros y Ey out. unfold x_rolling_data_out.
    assert (R : forall r : res (lgrid (option Qc)), rbind r Ok = r) by (now intros []). rewrite R. revert y Ey out.
    apply (along_fills None x md d d axis dim HX NM IM LM DM HC (or_introl eq_refl)
      (apply_ufunc [(Labelled x, d :: md)] (d :: md) [] (fun ts => rolling_data_nd K P window min_periods false zero ax mom false (arg 0 ts)))
      (finish None false x) None to_end (fun b => x_rolling_data K P (params_for md) window min_periods false zero axis dim b x)); [|apply finish_again|].
    - apply calc_named; [now left|intros n []|constructor|intros n []|intros n []|]. intros ts g. apply rolling_whole.
    - intros b. unfold x_rolling_data. at_dim. apply finish_only.
  Qed.
  (* a second operand is an array without names, or has no names that x does not have *)
  Lemma no_new_ok names o c : no_new_names names o -> Forall x_ok (labelled_of (map fst [(o, c : list sname)])).
  Proof. destruct o; cbn; [intros [H _]; now constructor|constructor]. Qed.
  Lemma no_new_incl names o c n : no_new_names names o -> In n (flat_map x_dims (labelled_of (map fst [(o, c : list sname)]))) -> In n names.
  Proof. destruct o; cbn; [intros [_ H] Q; rewrite app_nil_r in Q; now apply H|intros _ []]. Qed.
  Theorem rolling_exp_fills alpha alpha_axis adjust min_periods zero to_end : no_new_names dims alpha ->
    fills (x_rolling_exp_data K P (params_for md) alpha alpha_axis adjust min_periods zero axis dim to_end x)
      (x_rolling_exp_data_out K P (params_for md) alpha alpha_axis adjust min_periods zero axis dim to_end x).
  Proof.
    intros HA.
    apply (along_fills None x md d d axis dim HX NM IM LM DM HC (or_introl eq_refl)
      (rbind (sizes (x_dims x) (x_shape x) d) (fun n => rbind (match alpha with Plain t => rmap (fun q => Plain (snd q)) (prepare_alpha alpha_axis n true t) | Labelled _ => Ok alpha end) (fun alpha =>
        apply_ufunc [(Labelled x, d :: md); (alpha, [d])] (d :: md) [] (fun ts => rolling_exp_data_at K P (arg 1 ts) (-1) adjust min_periods zero (axis_value ax) mom (arg 0 ts)))))
      (finish None false x) None to_end (fun b => x_rolling_exp_data K P (params_for md) alpha alpha_axis adjust min_periods zero axis dim b x)); [|apply finish_again|].
    - intros g. destruct (sizes _ _ _) as [n|]; [|discriminate]. cbn [rbind].
      assert (H : forall al, (match alpha with Plain t => rmap (fun q => Plain (snd q)) (prepare_alpha alpha_axis n true t) | Labelled _ => Ok alpha end) = Ok al -> no_new_names dims al).
      { intros al. destruct alpha; [now intros [= <-]|]. intros E. apply rmap_inv in E. destruct E as (q & _ & ->). exact I. }
      destruct (match alpha with Plain t => _ | Labelled _ => _ end) as [al|]; [|discriminate]. cbn [rbind]. specialize (H al eq_refl).
      apply (calc_named [(al, [d])]); [now left|intros m []|exact (no_new_ok _ _ _ H)|intros m [<-|[]]; now left|intros m Hm; right; exact (no_new_incl _ _ _ _ H Hm)|]. intros ts g'. apply rolling_exp_whole.
    - intros b. unfold x_rolling_exp_data. at_dim. destruct (sizes _ _ _); [|reflexivity]. cbn [rbind]. destruct (match alpha with Plain t => _ | Labelled _ => _ end); [|reflexivity]. cbn [rbind]. apply finish_only.
  Qed.
  Theorem resample_fills freq rep_dim to_end : rep_dim = d \/ ~ In rep_dim dims -> no_new_names (rep_dim :: dims) freq ->
    fills (x_resample_data K P (params_for md) freq rep_dim axis dim to_end x) (x_resample_data_out K P (params_for md) freq rep_dim axis dim to_end x).
  Proof.
    intros HR HF.
    set (G := apply_ufunc [(Labelled x, d :: md); (freq, [rep_dim; d])] (rep_dim :: md) [] (fun ts => rmap to_grid (resample_data_at K P (arg 1 ts) (axis_value ax) mom (arg 0 ts)))).
    destruct (chooses_select x md axis dim d Nx DM HC) as (a & Ea & Es).
    set (order := (firstn a (x_dims x) ++ rep_dim :: skipn (S a) (x_dims x))%list).
    set (back := fun g => rbind (transpose_like 0%Qc (x_dims x) (fun n => if String.eqb n d then rep_dim else n) [] [] g) (fun g => rbind (infix_dims (map Some order) (lg_dims g)) (fun _ => l_transpose 0%Qc (map Some order) g))).
    assert (EO : order = result_dims false dims d rep_dim md).
    { unfold order, result_dims, dims. assert (La : a < List.length (x_dims x)) by (apply nth_error_Some; congruence).
      rewrite <- (firstn_skipn a (x_dims x)) at 3. rewrite map_app.
      assert (Sk : skipn a (x_dims x) = d :: skipn (S a) (x_dims x)).
      { clear - Ea. revert a Ea. induction (x_dims x) as [|m l IH]; intros [|a] E; try discriminate; cbn in *; [now injection E as ->|]. now apply IH. }
      assert (N2 : NoDup (firstn a (x_dims x) ++ d :: skipn (S a) (x_dims x))) by (rewrite <- Sk, firstn_skipn; exact Nx).
      apply NoDup_remove_2 in N2. rewrite Sk. cbn [map]. rewrite String.eqb_refl.
      assert (Id' : forall l, ~ In d l -> map (fun n => if String.eqb n d then rep_dim else n) l = l).
      { induction l as [|m l IH]; intros H; [reflexivity|]. cbn. destruct (String.eqb_spec m d) as [->|]; [elim H; now left|]. f_equal. apply IH. intros Q. apply H. now right. }
      rewrite !Id'; [reflexivity| |]; intros Q; apply N2, in_or_app; auto. }
    assert (HB : forall g sz, l_named sz (outer ++ rep_dim :: md) g -> exists y, back g = Ok y /\ l_named sz (result_dims false dims d rep_dim md) y /\ forall env, inside_names sz (outer ++ rep_dim :: md) env -> l_at 0%Qc y env = l_at 0%Qc g env).
    { intros g sz Ng. destruct (back_again 0%Qc rep_dim HR g sz Ng) as (y & E & Ny & Ay). unfold back. fold dims. rewrite E. cbn [rbind].
      set (Dx := result_dims false dims d rep_dim md) in *.
      assert (NDx : NoDup Dx) by (apply NoDup_map_in; [exact Nx|]; intros p q Hp Hq; destruct (String.eqb_spec p d) as [->|], (String.eqb_spec q d) as [->|]; try congruence; intros Q; subst; destruct HR; congruence).
      rewrite EO, (proj1 Ny). rewrite infix_exact by (auto; apply incl_refl). cbn [rbind].
      destruct (l_transpose_ok 0%Qc (map Some Dx) sz Dx Dx y Ny NDx) as (y' & E' & Ny' & _ & Ay').
      { rewrite known_some, filter_all by (intros n Hn; now apply smem_In). apply infix_exact; auto; apply incl_refl. }
      exists y'. split; [exact E'|]. split; [exact Ny'|]. intros env He. rewrite Ay', Ay; auto. intros n Hn. apply He.
      assert (CD : except_name Dx (rep_dim :: md) = outer) by (eapply calc_dims; eassumption).
      destruct (in_dec string_dec n (rep_dim :: md)) as [Q|Q]; apply in_or_app; [now right|left]. rewrite <- CD. apply except_name_In. auto. }
    assert (FF : forall b, x_resample_data K P (params_for md) freq rep_dim axis dim b x = rbind G (fun g => rbind (if b then Ok g else back g) (opt_rename d None))).
    { intros b. unfold x_resample_data. match goal with |- with_dim _ _ _ _ ?f = _ => destruct (with_dim_eq x md axis dim d f Nx DM LM HC) as (a' & Ea' & ->) end.
      assert (Q : a' = a) by (apply (proj1 (NoDup_nth_error _) Nx); unfold dims; [apply nth_error_Some; congruence|congruence]). subst a'.
      unfold core_dims, iter_dims. cbn [params_for xp_dims rbind app]. fold G. destruct G as [g|]; [|reflexivity]. cbn [rbind]. destruct b; [reflexivity|]. fold order. fold (back g). now destruct (back g). }
    apply (along_fills 0%Qc x md d rep_dim axis dim HX NM IM LM DM HC HR G back None to_end (fun b => x_resample_data K P (params_for md) freq rep_dim axis dim b x)); [|exact HB|exact FF].
    apply (calc_named [(freq, [rep_dim; d])]); [exact HR|intros n []|exact (no_new_ok _ _ _ HF)|intros n [<-|[<-|[]]]; [now left|right; now left]|intros n Hn; exact (no_new_incl _ _ _ _ HF Hn)|]. intros ts g. apply resample_data_whole.
  Qed.
  Theorem jackknife_fills data_reduced rep_dim to_end : match data_reduced with Some (r, _) => no_new_names dims r | None => True end ->
    fills (x_jackknife_data K P (params_for md) data_reduced rep_dim axis dim to_end x) (x_jackknife_data_out K P (params_for md) data_reduced rep_dim axis dim to_end x).
  Proof.
    intros HD.
    set (RED := match data_reduced with
                | None => rmap (fun g => Labelled (to_xarr g))
                       (x_reduce_data K P (params_for md) (match axis with Val a => Val [a] | Missing => Missing | PyNone => PyNone end)
                          (match dim with Val d => Val (DStr d) | Missing => Missing | PyNone => PyNone end) false true x)
                | Some (Plain r, Some ma) => rbind (array_axes (params_for md)) (fun mom => rmap Plain (np_moveaxis ma mom r))
                | Some (r, _) => Ok r
                end).
    assert (HRED : forall r, RED = Ok r -> no_new_names dims r).
    { intros r. unfold RED. clear RED. destruct data_reduced as [[[z|t] ma]|].
      - now intros [= <-].
      - destruct ma as [ma|]; [|now intros [= <-]]. destruct (array_axes _); [|discriminate]. cbn [rbind]. intros E. apply rmap_inv in E. destruct E as (q & _ & ->). exact I.
      - intros E. apply rmap_inv in E. destruct E as (g & E & ->).
        pose proof (chooses_one x md axis dim d HC DM) as HC1.
        destruct (reduce_cases K P x md [d] _ _ false HM HC1) as [(e & X)|(sz & gT & gF & ET & _ & NT & _)]; [rewrite X in E; discriminate|]. rewrite ET in E. injection E as <-.
        pose proof (reduce_NoDup x md [d] _ _ false HM HC1) as N. destruct (to_xarr_named sz _ gT NT N) as (X1 & X2 & _). split; [exact X1|]. rewrite X2. intros n Hn. apply in_app_or in Hn. destruct Hn as [Hn|Hn]; [now apply except_name_In in Hn|now apply IM]. }
    apply (along_fills 0%Qc x md d d axis dim HX NM IM LM DM HC (or_introl eq_refl)
      (rbind RED (fun red => apply_ufunc [(Labelled x, d :: md); (red, md)] (d :: md) [] (fun ts => rmap to_grid (jackknife_data_at K P (arg 1 ts, axes_last (List.length mom)) (axis_value ax) mom (arg 0 ts)))))
      (finish 0%Qc false x) rep_dim to_end (fun b => x_jackknife_data K P (params_for md) data_reduced rep_dim axis dim b x)); [|apply finish_again|].
    - intros g. destruct RED as [r|]; [|discriminate]. cbn [rbind]. specialize (HRED r eq_refl).
      apply (calc_named [(r, md)]); [now left|intros m []|exact (no_new_ok _ _ _ HRED)|intros m Hm; cbn in Hm; rewrite app_nil_r in Hm; right; now right|intros m Hm; right; exact (no_new_incl _ _ _ _ HRED Hm)|]. intros ts g'. apply jackknife_whole.
    - intros b. unfold x_jackknife_data. fold RED. destruct RED as [r|]; [|reflexivity]. cbn [rbind]. at_dim. unfold iter_dims. cbn [params_for xp_dims rbind]. apply finish_rename.
  Qed.
End DataFunctions.

(* conversion of moments *)
Theorem moments_type_fills : forall nmax to md x to_end order, has_moments md x ->
  fills (rmap (fun y => LG (x_dims y) (to_grid (x_val y))) (x_moments_type nmax to (params_for md) to_end order x)) (x_moments_type_out nmax to (params_for md) to_end order x).
Proof.
  intros nmax to md x to_end order HM y Ey out. pose proof HM as (HX & NM & LM & IM). assert (Nx : NoDup (x_dims x)) by apply HX. set (dims := x_dims x) in *. set (outer := except_name dims md).
  set (G := x_apply [(Labelled x, md)] md (fun ts => moments_type_nd nmax to (axes_last (List.length md)) false order (arg 0 ts))).
  assert (EF : forall b, x_moments_type nmax to (params_for md) b order x = rmap to_xarr (rbind G (finish 0%Qc b x))).
  { intros b. unfold x_moments_type. destruct (moments_params md LM) as [-> ->]. reflexivity. }
  unfold x_moments_type_out. rewrite EF in *. destruct G as [g|] eqn:EG; [|discriminate]. cbn [rbind] in *.
  unfold G, x_apply in EG. apply apply_ufunc_dims in EG; [|cbn; constructor; [exact HX|constructor]]. destruct EG as (Dg & Lg & ts & Fg). cbn [map fst labelled_of flat_map snd] in Dg. rewrite !app_nil_r in Dg.
  assert (Gg : grid_ok (lg_val g)).
  { revert Fg. clear. unfold moments_type_nd. whole. rewrite E. now rewrite to_tensor_grid. }
  assert (OD : outer_dims [] (md ++ md) [x] = outer).
  { rewrite outer_first; [|exact Nx|intros n []|intros n []]. apply except_ext. intros n _. rewrite in_app_iff. tauto. }
  rewrite OD in Dg.
  assert (N : NoDup (outer ++ md)) by (apply NoDup_app_iff; split; [now apply NoDup_filter|]; split; [exact NM|]; intros n Hn; now apply except_name_In in Hn).
  destruct (shaped_named (outer ++ md) g N Dg Gg) as (sz & Ng); [now rewrite Lg, Dg|].
  assert (Lv : forall z : lgrid Qc, LG (x_dims (to_xarr z)) (to_grid (x_val (to_xarr z))) = z) by (intros [ds [s v]]; reflexivity).
  destruct to_end.
  - cbn [finish rmap rbind] in Ey. rewrite Lv in Ey. injection Ey as <-. cbn [finish rmap rbind moves_transform]. rewrite Lv. apply plain_fills, Gg.
  - cbn [finish] in Ey. fold dims in Ey.
    assert (Same : forall n, In n dims <-> In n (outer ++ md)).
    { intros n. unfold outer. rewrite in_app_iff, except_name_In. split; [intros H; destruct (in_dec string_dec n md); auto|]. intros [[H _]|H]; auto. }
    assert (FL : filter (fun n => smem n (outer ++ md)) (map (fun n => n) (except_name dims []) ++ []) = dims).
    { rewrite app_nil_r, map_id. unfold except. rewrite (filter_all _ dims) by (intros; reflexivity). apply filter_all. intros n Hn. now apply smem_In, Same. }
    destruct (transpose_like_ok 0%Qc dims (fun n => n) [] [] sz (outer ++ md) g Ng N) as (gF & E1 & NF & AF); [cbv zeta; now rewrite FL|]. cbv zeta in NF. rewrite FL in NF.
    assert (X : except_name (outer ++ md) dims = []) by (apply filter_none; intros n Hn; apply Same in Hn; destruct (in_dec _ _ _); tauto). rewrite X in NF. cbn [app] in NF.
    rewrite E1 in Ey. cbn [rmap rbind] in Ey. rewrite Lv in Ey. injection Ey as <-. cbn [finish rmap rbind]. rewrite Lv.
    destruct (moved_view dims md Nx NM IM) as (vo & Ev & Em).
    assert (Mv : moves_transform (params_for md) false x = Ok (Some (map Z.of_nat (map (fun n => position String.eqb n dims) md), axes_last (List.length md)))).
    { unfold moves_transform, get_axes, iter_dims. cbn [params_for xp_dims xp_ndim rbind]. rewrite axis_positions by exact IM. cbn [rbind]. unfold axes_last_of. destruct LM as [L|L]; rewrite L; reflexivity. }
    rewrite Mv. exact (view_fills 0%Qc sz _ dims g gF _ vo Nx Ng NF AF Ev Em out).
Qed.
