(* Properties of functions that act along one axis of an array of moments. *)
From Coq Require Import Permutation.
From Verif Require Import Base BaseLemmas ModelPush ModelPushCov ModelKernels ModelIndex ModelAxes ModelNd Spec SpecAxes SpecNd
  ProofPush ProofPushCov Laws ProofKernels ProofSpec ProofIndex ProofLabels ProofAxes ProofArrays ProofMulti ProofNd Checks PropAxes.

(* ---- numbers of rows ---------------------------------------------------------------- *)

Section Lengths.
  Context {A V : Type} (K : pusher A V).
  Lemma cumulative_length data rows : cumulative K data = Some rows -> length rows = length data.
  Proof.
    destruct data as [|d l]; cbn; [now intros [= <-]|].
    assert (G : forall l p r, cumulative_from K p l = Some r -> length r = length l).
    { induction l0 as [|x l0 IH]; cbn; intros p r; [now intros [= <-]|]. destruct (p_push_data K p x) as [o|]; cbn; [|discriminate].
      destruct (cumulative_from K o l0) as [q|] eqn:E; cbn; [|discriminate]. intros [= <-]. cbn. f_equal. eauto. }
    destruct (cumulative_from K d l) as [q|] eqn:E; cbn; [|discriminate]. intros [= <-]. cbn. f_equal. eauto.
  Qed.
  Lemma cumulative_inverse_length data rows : cumulative_inverse K data = Some rows -> length rows = length data.
  Proof.
    destruct data as [|d l]; cbn; [now intros [= <-]|].
    assert (G : forall l p r, cumulative_inverse_from K p l = Some r -> length r = length l).
    { induction l0 as [|x l0 IH]; cbn; intros p r; [now intros [= <-]|]. destruct (p_push_data_scale K p (-(1)) x) as [o|]; cbn; [|discriminate].
      destruct (cumulative_inverse_from K x l0) as [q|] eqn:E; cbn; [|discriminate]. intros [= <-]. cbn. f_equal. eauto. }
    destruct (cumulative_inverse_from K d l) as [q|] eqn:E; cbn; [|discriminate]. intros [= <-]. cbn. f_equal. eauto.
  Qed.
  Lemma grouped_length gd : forall out rows, reduce_data_grouped_into K gd out = Some rows -> length rows = length out.
  Proof.
    unfold reduce_data_grouped_into. induction gd as [|[g x] l IH]; intros out rows; cbn [foldM]; [now intros [= <-]|].
    unfold grouped_step at 1. destruct (0 <=? g)%Z.
    - destruct (p_push_data K x _) as [o|]; cbn [obind]; [|discriminate]. intros H. rewrite (IH _ _ H). apply upd_length.
    - cbn [obind]. apply IH.
  Qed.
  Lemma fold_rows {S X} (step : S -> X -> option S) (rows : S -> nat) : (forall s x s', step s x = Some s' -> rows s' = Datatypes.S (rows s)) ->
    forall l s s', foldM step l s = Some s' -> rows s' = rows s + length l.
  Proof.
    intros H. induction l as [|x l IH]; cbn; intros s s'; [intros [= <-]; lia|]. destruct (step s x) as [s1|] eqn:E; cbn; [|discriminate].
    intros E'. rewrite (IH _ _ E'), (H _ _ _ E). lia.
  Qed.
  Lemma rolling_length window mc data rows : rolling_data K window mc data = Some rows -> length rows = length data.
  Proof.
    unfold rolling_data, rolling_data_core. set (m := Z.max mc 1).
    destruct (foldM (roll_grow K m data) _ _) as [s|] eqn:E1; cbn [obind]; [|discriminate].
    destruct (foldM (roll_slide K window m data) _ _) as [[[x c] r]|] eqn:E2; cbn [obind]; [|discriminate]. intros [= <-].
    apply (fold_rows _ (fun s => length (snd s))) in E1.
    2: { intros [[d c'] r'] i s'. unfold roll_grow, emit. destruct (qeqb _ _).
         - intros [= <-]. cbn. rewrite app_length. cbn. lia.
         - destruct (p_push_data K _ d); cbn; [|discriminate]. intros [= <-]. cbn. rewrite app_length. cbn. lia. }
    apply (fold_rows _ (fun s => length (snd s))) in E2.
    2: { intros [[d c'] r'] i s'. unfold roll_slide, emit. destruct (if qeqb _ _ then _ else _) as [[d1 c1]|]; cbn [obind]; [|discriminate].
         destruct (if qeqb _ _ then _ else _) as [[d2 c2]|]; cbn [obind]; [|discriminate].
         intros [= <-]. cbn. rewrite app_length. cbn. lia. }
    cbn [snd] in *. rewrite seq_length in *. rewrite E2, E1. cbn. lia.
  Qed.
  Lemma rolling_vals_length dflt window mc xw rows : rolling_vals K dflt window mc xw = Some rows -> length rows = length xw.
  Proof.
    unfold rolling_vals, rolling_vals_core. set (m := Z.max mc 1).
    destruct (foldM (rollv_grow K dflt m xw) _ _) as [s|] eqn:E1; cbn [obind]; [|discriminate].
    destruct (foldM (rollv_slide K dflt window m xw) _ _) as [[[x c] r]|] eqn:E2; cbn [obind]; [|discriminate]. intros [= <-].
    apply (fold_rows _ (fun s => length (snd s))) in E1.
    2: { intros [[d c'] r'] i s'. unfold rollv_grow, emit. destruct (nth i xw dflt) as [vx vw]. destruct (qeqb _ _).
         - intros [= <-]. cbn. rewrite app_length. cbn. lia.
         - destruct (p_push_val K _ _ d); cbn; [|discriminate]. intros [= <-]. cbn. rewrite app_length. cbn. lia. }
    apply (fold_rows _ (fun s => length (snd s))) in E2.
    2: { intros [[d c'] r'] i s'. unfold rollv_slide, emit. destruct (nth i xw dflt) as [vx vw]. destruct (nth (i - window) xw dflt) as [ox ow].
         destruct (if qeqb _ _ then _ else _) as [[d1 c1]|]; cbn [obind]; [|discriminate].
         destruct (if qeqb _ _ then _ else _) as [[d2 c2]|]; cbn [obind]; [|discriminate].
         intros [= <-]. cbn. rewrite app_length. cbn. lia. }
    cbn [snd] in *. rewrite seq_length in *. rewrite E2, E1. cbn. lia.
  Qed.
  Lemma rolling_exp_length adjust mc ad rows : rolling_exp_data K adjust mc ad = Some rows -> length rows = length ad.
  Proof.
    unfold rolling_exp_data. destruct (foldM _ _ _) as [[[[x c] w] r]|] eqn:E; cbn [obind]; [|discriminate]. intros [= <-].
    apply (fold_rows _ (fun s => length (snd s))) in E; [exact E|].
    intros [[[d c'] w'] r'] [al y] s'. unfold rexp_step. destruct (if qeqb _ _ then _ else _) as [[[d1 c1] w1]|]; cbn [obind]; [|discriminate].
    intros [= <-]. cbn. rewrite app_length. cbn. lia.
  Qed.
  Lemma rolling_exp_vals_length adjust mc ad rows : rolling_exp_vals K adjust mc ad = Some rows -> length rows = length ad.
  Proof.
    unfold rolling_exp_vals. destruct (foldM _ _ _) as [[[[x c] w] r]|] eqn:E; cbn [obind]; [|discriminate]. intros [= <-].
    apply (fold_rows _ (fun s => length (snd s))) in E; [exact E|].
    intros [[[d c'] w'] r'] [al [y yw]] s'. unfold rexpv_step. destruct (if qeqb _ _ then _ else _) as [[[d1 c1] w1]|]; cbn [obind]; [|discriminate].
    intros [= <-]. cbn. rewrite app_length. cbn. lia.
  Qed.
End Lengths.

(* ---- column by column --------------------------------------------------------------------- *)

Lemma row_elem_val {A V} (K : pusher A V) P rows i m b : nth_error rows i = Some b -> row_elem K P rows (i :: m) = pk_unpack P b m.
Proof. intros H. unfold row_elem. cbn [hd tl]. now rewrite (nth_error_nth _ _ _ H). Qed.
Lemma row_elem_opt_val {A} (P : packer A) rows i m b : nth_error rows i = Some b -> row_elem_opt P rows (i :: m) = row_entry P false b m.
Proof. intros H. unfold row_elem_opt. cbn [hd tl]. rewrite (nth_error_nth _ _ _ H). now destruct b. Qed.
Lemma of_to_tensor (g : grid Qc) : of_tensor (to_tensor g) = g.
Proof. now destruct g. Qed.
Lemma by_columns_to_t {B} (val : B -> list nat -> Qc) run to_end newlen a M t r :
  by_columns 0%Qc val run to_end newlen a M t r -> by_columns_t val run to_end newlen a M t (rmap to_tensor r).
Proof. unfold by_columns_t. destruct r as [g|e]; cbn; [now rewrite of_to_tensor|auto]. Qed.

Theorem cumulative_array : forall {A V} (K : pusher A V) ok P, moment_array K ok P ->
  forall (inverse : bool) mom_axes axis to_end a M t, axis_of_moments P mom_axes axis a M t ->
  by_columns_t (pk_unpack P)
    (fun env => of_opt EZeroDiv ((if inverse then cumulative_inverse K else cumulative K) (rows_along P t [a] M env)))
    to_end (shape_of t a) a M t (cumulative_nd K P inverse axis mom_axes to_end t).
Proof.
  intros A V K ok P HM inverse mom_axes axis to_end a M t HA. pose proof (ma_packer _ _ _ HM) as HP.
  destruct (prepare_data_view P mom_axes axis to_end a M t HA) as (za & mom' & t' & E & VW & F & Eza). cbv zeta in VW, F, Eza.
  unfold cumulative_nd. rewrite E. cbn [rbind]. apply by_columns_to_t.
  rewrite (col_dim P mom_axes axis to_end a M t t' za HA VW Eza) at 1.
  apply (columns_one P HP mom_axes axis to_end a M t t' za mom' HA VW F Eza 0%Qc (pk_unpack P) (row_elem K P) (row_elem_val K P)
           (fun col => of_opt EZeroDiv ((if inverse then cumulative_inverse K else cumulative K) col))).
  intros col rows Hc. destruct inverse.
  - destruct (cumulative_inverse K col) as [r|] eqn:Er; cbn; [|discriminate]. intros [= <-]. now rewrite (cumulative_inverse_length _ _ _ Er).
  - destruct (cumulative K col) as [r|] eqn:Er; cbn; [|discriminate]. intros [= <-]. now rewrite (cumulative_length _ _ _ Er).
Qed.

Lemma by_columns_ext {B T} (d : T) (val : B -> list nat -> T) run run' to_end newlen a M t r :
  (forall env, inside (shape_of t) (except_nat (seq 0 (tndim t)) (a :: M)) env -> run env = run' env) ->
  by_columns d val run to_end newlen a M t r -> by_columns d val run' to_end newlen a M t r.
Proof.
  intros H. destruct r as [g|e]; cbn [by_columns].
  - intros (H1 & H2 & H3). split; [exact H1|]. split; [exact H2|]. intros env I. destruct (H3 env I) as (rows & b & E & E').
    exists rows, b. rewrite <- H; [now split|]. intros x Hx.
    assert (Hc : In x (column_axes to_end (tndim t) a M)).
    { destruct to_end; cbn [column_axes]; [apply in_or_app; now left|]. now apply except_In in Hx. }
    specialize (I x Hc). cbn beta in I. destruct (Nat.eqb_spec x a) as [Ea|]; [|exact I]. apply except_In in Hx. cbn in Hx. subst. tauto.
  - intros (env & I & E). exists env. split; [exact I|]. now rewrite <- H.
Qed.
Lemma zread_neg {T} (l : list T) k d : (0 < k <= length l) -> zread l (- Z.of_nat k) = Ok (nth (length l - k) l d).
Proof.
  intros H. rewrite (zread_ok _ _ d) by lia. f_equal. unfold wrap. destruct (Z.ltb_spec (- Z.of_nat k) 0); [|lia]. f_equal. lia.
Qed.

Theorem resample_array : forall {A V} (K : pusher A V) ok P, moment_array K ok P ->
  forall freq mom_axes axis to_end a M t, axis_of_moments P mom_axes axis a M t -> tensor_ok freq -> tndim freq = 2 ->
  (shape_of freq 1 = shape_of t a ->
   by_columns_t (pk_unpack P) (fun env => of_opt EZeroDiv (resample_data K (table freq) (rows_along P t [a] M env)))
     to_end (shape_of freq 0) a M t (resample_data_nd K P freq axis mom_axes to_end t)) /\
  (shape_of freq 1 <> shape_of t a -> resample_data_nd K P freq axis mom_axes to_end t = Raise EValue).
Proof.
  intros A V K ok P HM freq mom_axes axis to_end a M t HA Hf Hn. pose proof (ma_packer _ _ _ HM) as HP.
  destruct (prepare_data_view P mom_axes axis to_end a M t HA) as (za & mom' & t' & E & VW & F & Eza). cbv zeta in VW, F, Eza.
  unfold resample_data_nd, resample_data_at. rewrite E. cbn [rbind]. unfold shape_at. unfold tndim in Hn.
  change (-2)%Z with (- Z.of_nat 2)%Z. change (-1)%Z with (- Z.of_nat 1)%Z.
  rewrite !(zread_neg _ _ 0) by lia. rewrite Hn. cbn [Nat.sub rbind]. fold (shape_of freq 0). fold (shape_of freq 1).
  rewrite (col_dim P mom_axes axis to_end a M t t' za HA VW Eza). split; intros HC.
  2: { destruct (Nat.eqb_spec (shape_of freq 1) (shape_of t a)); [tauto|reflexivity]. }
  rewrite HC, Nat.eqb_refl. cbn [negb]. apply by_columns_to_t.
  set (tab := fun f : list nat -> Qc => map (fun i => map (fun j => f [i; j]) (seq 0 (shape_of t a))) (seq 0 (shape_of freq 0))).
  apply (by_columns_ext _ _ (fun env => of_opt EZeroDiv (resample_data K (tab (aligned_entry freq [0; 1] (except_nat (seq 0 (tndim t)) (a :: M)) env)) (rows_along P t [a] M env)))).
  { intros env _. do 2 f_equal. unfold tab, table. rewrite HC. apply map_ext_in. intros i Hi. apply map_ext_in. intros j Hj.
    unfold aligned_entry, entry, tndim. rewrite Hn. reflexivity. }
  pose proof (columns_two P HP mom_axes axis to_end a M t t' za mom' HA VW F Eza 0%Qc (pk_unpack P) (row_elem K P) (row_elem_val K P)
           freq [(- Z.of_nat 2)%Z; (- Z.of_nat 1)%Z] [0; 1] (fun f col => of_opt EZeroDiv (resample_data K (tab f) col)) (shape_of freq 0)) as X.
  rewrite (col_dim P mom_axes axis to_end a M t t' za HA VW Eza) in X. apply X.
  - unfold aligns, tndim. rewrite Hn. cbn. split; [exact Hf|]. split; [repeat constructor; cbn; lia|]. split; [lia|]. split; [lia|tauto].
  - unfold tndim. rewrite Hn. repeat constructor; lia.
  - intros f h col Hfh. unfold tab. do 2 f_equal. apply map_ext. intros i. apply map_ext. intros j. now apply Hfh.
  - intros f col rows _. destruct (resample_data K (tab f) col) as [r|] eqn:Er; cbn; [|discriminate]. intros [= <-].
    unfold resample_data in Er. rewrite (mapM_length _ _ _ Er). unfold tab. now rewrite map_length, seq_length.
Qed.

Theorem grouped_array : forall {A V} (K : pusher A V) ok P, moment_array K ok P ->
  forall by_ mom_axes axis to_end a M t, axis_of_moments P mom_axes axis a M t ->
  match zmax by_ with
  | Ok mx =>
      (length by_ = shape_of t a -> (-1 <= mx)%Z ->
       by_columns_t (pk_unpack P) (fun env => reduce_data_grouped K by_ (rows_along P t [a] M env))
         to_end (Z.to_nat (mx + 1)) a M t (reduce_data_grouped_nd K P by_ axis mom_axes to_end t)) /\
      (length by_ <> shape_of t a \/ (mx < -1)%Z -> reduce_data_grouped_nd K P by_ axis mom_axes to_end t = Raise EValue)
  | Raise _ => reduce_data_grouped_nd K P by_ axis mom_axes to_end t = Raise EValue
  end.
Proof.
  intros A V K ok P HM by_ mom_axes axis to_end a M t HA. pose proof (ma_packer _ _ _ HM) as HP.
  destruct (prepare_data_view P mom_axes axis to_end a M t HA) as (za & mom' & t' & E & VW & F & Eza). cbv zeta in VW, F, Eza.
  unfold reduce_data_grouped_nd. rewrite E. cbn [rbind].
  rewrite (col_dim P mom_axes axis to_end a M t t' za HA VW Eza).
  destruct (zmax by_) as [mx|e] eqn:Ez.
  2: { destruct by_; [|discriminate]. injection Ez as <-. cbn. destruct (shape_of t a); reflexivity. }
  cbn [rbind]. split.
  - intros HL Hmx. rewrite HL, Nat.eqb_refl. cbn [negb]. destruct (Z.ltb_spec (mx + 1) 0); [lia|]. apply by_columns_to_t.
    apply (by_columns_ext _ _ (fun env => of_opt EZeroDiv (reduce_data_grouped_into K (combine by_ (rows_along P t [a] M env)) (repeat (p_zero K) (Z.to_nat (mx + 1)))))).
    { intros env _. unfold reduce_data_grouped. assert (Lr : length (rows_along P t [a] M env) = shape_of t a).
      { unfold rows_along. rewrite map_length, all_idx_length. cbn. lia. }
      rewrite Lr, HL, Nat.eqb_refl. cbn [negb]. destruct by_ as [|b l]; [discriminate|]. cbn in Ez. injection Ez as Ez. rewrite Ez.
      destruct (Z.ltb_spec (mx + 1) 0); [lia|reflexivity]. }
    pose proof (columns_one P HP mom_axes axis to_end a M t t' za mom' HA VW F Eza 0%Qc (pk_unpack P) (row_elem K P) (row_elem_val K P)
      (fun col => of_opt EZeroDiv (reduce_data_grouped_into K (combine by_ col) (repeat (p_zero K) (Z.to_nat (mx + 1))))) (Z.to_nat (mx + 1))) as X.
    rewrite (col_dim P mom_axes axis to_end a M t t' za HA VW Eza) in X. apply X. clear X.
    intros col rows _. destruct (reduce_data_grouped_into K _ _) as [r|] eqn:Er; cbn; [|discriminate]. intros [= <-].
    rewrite (grouped_length _ _ _ _ Er). apply repeat_length.
  - intros [H|H].
    + destruct (Nat.eqb_spec (length by_) (shape_of t a)); [tauto|reflexivity].
    + destruct (Nat.eqb_spec (length by_) (shape_of t a)); [|reflexivity]. cbn [negb]. destruct (Z.ltb_spec (mx + 1) 0); [reflexivity|lia].
Qed.

Lemma validate_ends n index start end_ u : validate_index n index start end_ = Ok u -> length start = length end_.
Proof.
  unfold validate_index. destruct (if Nat.eqb (List.length index) 0 then _ else _) as [x|e]; cbn [rbind]; [|discriminate].
  destruct (Nat.eqb_spec (List.length start) (List.length end_)) as [E|E]; [auto|]. cbn [negb]. discriminate.
Qed.
Theorem indexed_array : forall {A V} (K : pusher A V) ok P, moment_array K ok P ->
  forall index start end_ scale mom_axes axis to_end a M t, axis_of_moments P mom_axes axis a M t ->
  let good := validate_index (shape_of t a) index start end_ = Ok tt /\ (forall s, scale = Some s -> length s = length index) in
  (good ->
   by_columns_t (pk_unpack P) (fun env => reduce_data_indexed K (rows_along P t [a] M env) index start end_ scale)
     to_end (length start) a M t (reduce_data_indexed_nd K P index start end_ scale axis mom_axes to_end t)) /\
  (~ good -> reduce_data_indexed_nd K P index start end_ scale axis mom_axes to_end t = Raise EValue).
Proof.
  intros A V K ok P HM index start end_ scale mom_axes axis to_end a M t HA good. pose proof (ma_packer _ _ _ HM) as HP.
  destruct (prepare_data_view P mom_axes axis to_end a M t HA) as (za & mom' & t' & E & VW & F & Eza). cbv zeta in VW, F, Eza.
  unfold reduce_data_indexed_nd. rewrite E. cbn [rbind].
  rewrite (col_dim P mom_axes axis to_end a M t t' za HA VW Eza). split.
  - intros [G1 G2]. rewrite G1. cbn [rbind]. pose proof (validate_ends _ _ _ _ _ G1) as LE.
    set (sc := match scale with None => repeat 1%Qc (length index) | Some s => s end).
    assert (ES : match scale with
       | None => Ok (repeat 1%Qc (length index))
       | Some s => if Nat.eqb (length s) (length index) then Ok s else Raise EValue end = Ok sc).
    { unfold sc. destruct scale as [s|]; [|reflexivity]. now rewrite (G2 s eq_refl), Nat.eqb_refl. }
    rewrite ES. cbn [rbind]. apply by_columns_to_t.
    apply (by_columns_ext _ _ (fun env => mapR (fun se => indexed_group K (rows_along P t [a] M env) index sc (fst se) (snd se)) (combine start end_))).
    { intros env _. unfold reduce_data_indexed. assert (Lr : length (rows_along P t [a] M env) = shape_of t a).
      { unfold rows_along. rewrite map_length, all_idx_length. cbn. lia. }
      rewrite Lr, G1. cbn [rbind]. rewrite ES. reflexivity. }
    pose proof (columns_one P HP mom_axes axis to_end a M t t' za mom' HA VW F Eza 0%Qc (pk_unpack P) (row_elem K P) (row_elem_val K P)
      (fun col => mapR (fun se => indexed_group K col index sc (fst se) (snd se)) (combine start end_)) (length start)) as X.
    rewrite (col_dim P mom_axes axis to_end a M t t' za HA VW Eza) in X. apply X. clear X.
    intros col rows _ H. rewrite (mapR_length _ _ _ H), combine_length. lia.
  - intros G. destruct (validate_index (shape_of t a) index start end_) as [[]|e] eqn:Ev; cbn [rbind]; [|rewrite validate_index_err in Ev by congruence; congruence].
    destruct scale as [s|]; [|exfalso; apply G; split; [reflexivity|discriminate]].
    destruct (Nat.eqb_spec (length s) (length index)) as [El|El]; [|reflexivity].
    exfalso. apply G. split; [reflexivity|]. now intros ? [= <-].
Qed.

Lemma reduce_rows_ok {A V} (K : pusher A V) ok P : moment_array K ok P ->
  forall t R M env r, reduce_data K (rows_along P t R M env) = Some r -> ok r.
Proof.
  intros HM t R M env r. destruct (kernel_laws K ok (ma_kernel _ _ _ HM)) as (I & L & E).
  assert (G : forall l o, Forall (l_wf L) l -> l_wf L o -> foldM (fun o d => p_push_data K d o) l o = Some r -> l_wf L r).
  { induction l as [|d l IH]; cbn; intros o F Ho; [now intros [= <-]|]. inversion F as [|? ? Hd Hl]; subst.
    destruct (Qc_eq_dec (p_wt K d) 0) as [Z|Z]; [rewrite (l_push_zero _ _ L) by exact Z; now apply IH|].
    destruct (Qc_eq_dec (p_wt K o + p_wt K d)%Qc 0) as [Z'|Z'].
    - rewrite (l_push_none _ _ L) by assumption. discriminate.
    - destruct (l_push_some _ _ L d o Hd Ho Z Z') as (q & Eq & Hq & _). rewrite Eq. cbn. now apply IH. }
  intros H. apply E. eapply (G (rows_along P t R M env) (p_zero K)); [| |exact H].
  - unfold rows_along. apply Forall_map, Forall_forall. intros x _. apply E. apply (ma_pack_ok _ _ _ HM).
  - apply (l_wf_zero _ _ L).
Qed.
Lemma valid_zeros s : Forall (fun n => 0 < n) s -> valid s (repeat 0 (length s)).
Proof. intros H. induction H as [|x l Hx H IH]; [constructor|]. cbn. now constructor. Qed.
(* data_reduced given: an array with moment axes C, other axes lined up with the last axes of the data *)
Theorem jackknife_given_array : forall {A V} (K : pusher A V) ok P, moment_array K ok P ->
  forall r mom_axes_reduced C mom_axes axis to_end a M t, axis_of_moments P mom_axes axis a M t ->
  let L := except_nat (seq 0 (tndim t)) (a :: M) in
  Forall2 (is_axis (tndim r)) (match mom_axes_reduced with None => axes_last (length M) | Some l => l end) C ->
  aligns r C L (shape_of t) -> map (shape_of r) C = pk_shape P ->
  by_columns_t (pk_unpack P)
    (fun env => of_opt EZeroDiv (jackknife_data_from K (pk_pack P (aligned_entry r C L env)) (rows_along P t [a] M env)))
    to_end (shape_of t a) a M t (jackknife_data_nd K P (Some (r, mom_axes_reduced)) axis mom_axes to_end t).
Proof.
  intros A V K ok P HM r mr C mom_axes axis to_end a M t HA L HC HL SC. pose proof (ma_packer _ _ _ HM) as HP.
  destruct (prepare_data_view P mom_axes axis to_end a M t HA) as (za & mom' & t' & E & VW & F & Eza). cbv zeta in VW, F, Eza.
  unfold jackknife_data_nd, jackknife_data_at.
  assert (EM : length mom_axes = length M) by (destruct HA as (_ & H & _); exact (Forall2_len _ _ _ H)).
  rewrite EM. set (mx := match mr with None => axes_last (length M) | Some l => l end) in HC.
  replace (match mr with None => Ok (r, axes_last (length M)) | Some ax => Ok (r, ax) end) with (Ok (r, mx)) by (now destruct mr).
  cbn [rbind]. rewrite E. cbn [rbind]. apply by_columns_to_t.
  pose proof (columns_two P HP mom_axes axis to_end a M t t' za mom' HA VW F Eza 0%Qc (pk_unpack P) (row_elem K P) (row_elem_val K P)
           r mx C (fun f col => of_opt EZeroDiv (jackknife_data_from K (pk_pack P f) col)) (shape_of t a)) as X.
  rewrite (col_dim P mom_axes axis to_end a M t t' za HA VW Eza) in X |- *. apply X.
  - exact HL.
  - exact HC.
  - intros f h col Hf. do 2 f_equal. apply (proj1 HP). intros m Hm. apply Hf. rewrite <- SC in Hm. apply valid_length in Hm. now rewrite map_length in Hm.
  - intros f col rows Hc. destruct (jackknife_data_from K _ col) as [q|] eqn:Er; cbn; [|discriminate]. intros [= <-].
    unfold jackknife_data_from in Er. now rewrite (mapM_length _ _ _ Er).
Qed.

Theorem jackknife_array : forall {A V} (K : pusher A V) ok P, moment_array K ok P ->
  forall mom_axes axis to_end a M t, axis_of_moments P mom_axes axis a M t ->
  by_columns_t (pk_unpack P) (fun env => of_opt EZeroDiv (jackknife_data K (rows_along P t [a] M env)))
    to_end (shape_of t a) a M t (jackknife_data_nd K P None axis mom_axes to_end t).
Proof.
  intros A V K ok P HM mom_axes axis to_end a M t HA. pose proof HA as HA'. destruct HA' as (Ht & H1 & H2 & N & SM).
  pose proof (Forall2_len _ _ _ H1) as EM.
  set (L := except_nat (seq 0 (tndim t)) (a :: M)).
  inversion N as [|? ? Na NM]; subst.
  pose proof (is_axis_range _ _ _ H1) as BM. pose proof (names_axis_lt _ _ _ _ H2) as BA.
  assert (EX : except_nat (seq 0 (tndim t)) ([a] ++ M) = L) by reflexivity.
  assert (EO : out_axes false true (tndim t) [a] M = L ++ M).
  { reflexivity. }
  assert (NL : NoDup (L ++ M)).
  { apply NoDup_app_; [apply NoDup_except, seq_NoDup|exact NM|]. intros x Hx. apply except_In in Hx. cbn in Hx. tauto. }
  assert (HR : (exists out, reduce_data_nd K P mom_axes (Some [axis]) false true t = Ok out /\ holds_reduction K P false true [a] M t out) \/
    (reduce_data_nd K P mom_axes (Some [axis]) false true t = Raise EZeroDiv /\
     exists env, inside (shape_of t) (except_nat (seq 0 (tndim t)) [a]) env /\ reduce_data K (rows_along P t [a] M env) = None)).
  { apply (reduce_nd_cells K P (ma_packer K ok P HM)); try assumption.
    - cbn. constructor; [exact H2|constructor].
    - apply NoDup_app_; [exact NM|constructor; [intros []|constructor]|]. intros x Hx [<-|[]]. tauto.
    - discriminate. }
  unfold jackknife_data_nd, jackknife_data_at at 1. destruct HR as [(out & E1 & E2)|(E1 & env & I & E2)].
  - rewrite E1. cbn [rmap rbind].
    pose proof (jackknife_given_array K ok P HM out None (seq (length L) (length M)) mom_axes axis to_end a M t HA) as G. cbv zeta in G. fold L in G.
    destruct E2 as (Ho & Es & Ee). rewrite EO in Es, Ee.
    assert (En : tndim out = length L + length M) by (unfold tndim; now rewrite Es, map_length, app_length).
    assert (EE : except_nat (seq 0 (tndim out)) (seq (length L) (length M)) = seq 0 (length L)).
    { rewrite En. replace (length L + length M) with (length L + length M) by lia. rewrite seq_app, except_app. cbn [plus].
      rewrite (except_all _ (seq (length L) (length M))), app_nil_r by auto. apply except_none.
      intros x Hx Hy. apply in_seq in Hx, Hy. lia. }
    assert (EA : forall p, p < length L -> aligned_with out (seq (length L) (length M)) L p = nth p L 0).
    { intros p Hp. unfold aligned_with. rewrite EE, seq_length, Nat.sub_diag. cbn [plus]. f_equal.
      pose proof (index_of_nth (seq 0 (length L)) p (seq_NoDup _ _)) as X. rewrite seq_length, seq_nth in X by exact Hp. exact (X Hp). }
    assert (ES : forall p, p < length L -> shape_of out p = shape_of t (nth p L 0)).
    { intros p Hp. unfold shape_of at 1. rewrite Es, (nth_map_in _ _ _ _ 0), app_nth1 by (rewrite ?app_length; lia).
      destruct (in_dec Nat.eq_dec (nth p L 0) [a]) as [[Ha|[]]|]; [|reflexivity].
      assert (Hx : In (nth p L 0) L) by (now apply nth_In). rewrite <- Ha in Hx. apply except_In in Hx. cbn in Hx. tauto. }
    eapply by_columns_ext; [|unfold jackknife_data_nd, jackknife_data_at in G; cbn [rbind] in G; rewrite EM in G |- *; apply G].
    + intros env I. cbv beta. fold L in I.
      assert (EN : forall c, valid (pk_shape P) c -> exists r, reduce_data K (rows_along P t [a] M env) = Some r /\
                 aligned_entry out (seq (length L) (length M)) L env c = pk_unpack P r c).
      { intros c Hc. rewrite <- SM in Hc. pose proof (valid_length _ _ Hc) as Lc. rewrite map_length in Lc.
        destruct (Ee (bind M c env)) as (r & Er & Eq).
        - intros x Hx. apply in_app_or in Hx. destruct Hx as [Hx|Hx].
          + destruct (in_dec Nat.eq_dec x [a]) as [[<-|[]]|]; [apply except_In in Hx; cbn in Hx; tauto|].
            rewrite bind_out by (intros C; apply except_In in Hx; cbn in Hx; tauto). now apply I.
          + destruct (in_dec Nat.eq_dec x [a]) as [[<-|[]]|]; [tauto|]. rewrite bind_in by assumption. now apply valid_nth_index.
        - exists r. rewrite <- Er. split.
          + f_equal. apply (rows_col_ext P (ma_packer _ _ _ HM)); [exact N|exact SM|]. intros b _ Hb. rewrite bind_out; [reflexivity|]. cbn in Hb. tauto.
          + rewrite map_bind in Eq by assumption. rewrite <- Eq. unfold aligned_entry, entry. f_equal. rewrite En, seq_app, !map_app. cbn [plus]. f_equal.
            * transitivity (map env L).
              2: { apply map_ext_in. intros x Hx. rewrite bind_out; [reflexivity|]. intros C. apply except_In in Hx. cbn in Hx. tauto. }
              transitivity (map env (map (fun p => nth p L 0) (seq 0 (length L)))); [|now rewrite (map_nth_seq L 0)].
              rewrite map_map. apply map_ext_in. intros p Hp. apply in_seq in Hp.
              rewrite bind_out by (rewrite in_seq; lia). rewrite ES, EA by lia.
              destruct (Nat.eqb_spec (shape_of t (nth p L 0)) 1) as [E|]; [|reflexivity].
              assert (X := I (nth p L 0) ltac:(apply nth_In; lia)). lia.
            * rewrite (map_bind M) by assumption. apply map_bind; [apply seq_NoDup|now rewrite seq_length]. }
      destruct (EN (repeat 0 (length (pk_shape P)))) as (r & Er & _).
      { apply valid_zeros, (ma_packer _ _ _ HM). }
      unfold jackknife_data. rewrite Er. cbn [obind]. do 2 f_equal.
      rewrite <- (ma_pack_unpack _ _ _ HM r) by exact (reduce_rows_ok K ok P HM _ _ _ _ _ Er).
      apply (proj1 (ma_packer _ _ _ HM)). intros c Hc. destruct (EN c Hc) as (r' & Er' & ->). congruence.
    + cbn [Nat.eqb]. apply axes_last_positions; [lia|]. f_equal. lia.
    + unfold aligns. rewrite EE, seq_length. split; [exact Ho|]. split; [apply seq_NoDup|]. split; [intros c Hc; apply in_seq in Hc; lia|].
      split; [lia|]. intros p Hp. apply in_seq in Hp. left. rewrite EA by lia. apply ES. lia.
    + rewrite <- SM. rewrite <- (map_nth_seq M 0 (length M)) at 2 by reflexivity. rewrite map_map.
      replace (seq (length L) (length M)) with (map (fun i => length L + i) (seq 0 (length M))) by (rewrite seq_shift_add; f_equal; lia).
      rewrite map_map. apply map_ext_in. intros k Hk. apply in_seq in Hk. unfold shape_of at 1.
      rewrite Es, (nth_map_in _ _ _ _ 0) by (rewrite app_length; lia). rewrite app_nth2 by lia.
      replace (length L + k - length L) with k by lia. destruct (in_dec Nat.eq_dec (nth k M 0) [a]) as [[Ha|[]]|]; [|reflexivity].
      exfalso. apply Na. rewrite Ha. apply nth_In. lia.
  - rewrite E1. cbn [rmap rbind by_columns_t by_columns]. exists env. split.
    + intros x Hx. apply I. apply except_In in Hx. apply except_In. cbn in *. tauto.
    + unfold jackknife_data. now rewrite E2.
Qed.

Lemma forallb_map {X Y} (f : Y -> bool) (g : X -> Y) l : forallb f (map g l) = forallb (fun x => f (g x)) l.
Proof. induction l as [|x l IH]; [reflexivity|]. cbn. now rewrite IH. Qed.
Lemma forallb_ext_in {X} (f g : X -> bool) l : (forall x, In x l -> f x = g x) -> forallb f l = forallb g l.
Proof. induction l as [|x l IH]; intros H; [reflexivity|]. cbn. rewrite H by now left. f_equal. apply IH. intros y Hy. apply H. now right. Qed.
Lemma nth_error_skipn {X} n (l : list X) i : nth_error (skipn n l) i = nth_error l (n + i).
Proof. revert l. induction n as [|n IH]; intros [|x l]; cbn; try reflexivity; [now destruct i|apply IH]. Qed.

(* ---- rolling --------------------------------------------------------------------------- *)

Lemma normalize_dup n l r : Forall2 (is_axis n) l r -> normalize_axis_tuple (Some (map AInt l)) n None true = Ok r.
Proof.
  intros H. unfold normalize_axis_tuple. cbn [negb andb].
  assert (E : mapR (fun a => normalize_axis_index a n None) (map AInt l) = Ok r).
  { apply mapR_Forall2. induction H as [|x y l r Hx H IH]; [constructor|]. cbn [map]. constructor; [|exact IH]. now apply normalize_index_ok. }
  rewrite E. reflexivity.
Qed.
Lemma column_axes_incl to_end n a M : NoDup (a :: M) -> (forall b, In b (a :: M) -> b < n) ->
  NoDup (column_axes to_end n a M) /\ incl (a :: M) (column_axes to_end n a M).
Proof.
  intros N B. pose proof (perm_range _ _ (column_axes_perm to_end n a M N B)) as (H1 & H2 & H3). split; [exact H1|].
  intros b Hb. now apply H3, B.
Qed.
Lemma zero_missing_columns {A} (P : packer A) run to_end newlen a M t z g :
  NoDup (a :: M) -> (forall b, In b (a :: M) -> b < tndim t) ->
  holds_columns None (row_entry P false) run to_end newlen a M t g ->
  holds_columns None (row_entry P z) run to_end newlen a M t
    (zero_missing (map (fun c => index_of c (column_axes to_end (tndim t) a M)) M) z g).
Proof.
  intros N B H. destruct (column_axes_incl to_end (tndim t) a M N B) as [NA IA].
  destruct z; [|exact H]. unfold zero_missing. destruct H as (H1 & H2 & H3).
  split; [apply gtabulate_ok|]. split; [exact H2|]. intros env I. destruct (H3 env I) as (rows & b & E1 & E2 & E3).
  exists rows, b. split; [exact E1|]. split; [exact E2|].
  rewrite gget_gtabulate; [|rewrite H2; now apply inside_valid]. rewrite E3. destruct b as [b|]; cbn [row_entry andb]; [reflexivity|].
  assert (IM : incl M (column_axes to_end (tndim t) a M)) by (intros c Hc; apply IA; now right).
  rewrite <- (names_core env _ M IM), !forallb_map.
  rewrite (forallb_ext_in _ _ M (fun x _ => Nat.eqb_sym (nth (index_of x (column_axes to_end (tndim t) a M)) _ 0) 0)). reflexivity.
Qed.
Lemma slice_columns {B T} (d : T) (val : B -> list nat -> T) run to_end newlen pad a M t tp g :
  NoDup (a :: M) -> (forall b, In b (a :: M) -> b < tndim t) ->
  tndim tp = tndim t -> (forall b, b <> a -> shape_of tp b = shape_of t b) ->
  (forall e e', (forall b, b < tndim t -> ~ In b (a :: M) -> e b = e' b) -> run e = run e') ->
  holds_columns d val run to_end (newlen + pad) a M tp g ->
  holds_columns d val (fun env => rmap (skipn pad) (run env)) to_end newlen a M t
    (slice_from d (index_of a (column_axes to_end (tndim t) a M)) pad g).
Proof.
  intros N Bd En Es Hr (H1 & H2 & H3). rewrite En in H2, H3. destruct (column_axes_incl to_end (tndim t) a M N Bd) as [NA IA].
  set (ax := column_axes to_end (tndim t) a M) in *. destruct (index_of_lt a ax (IA a (or_introl eq_refl))) as [Q1 Q2].
  set (sh := fun b => if Nat.eqb b a then newlen else shape_of t b).
  set (shp := fun b => if Nat.eqb b a then newlen + pad else shape_of tp b) in *.
  assert (U : forall (f : nat -> nat) v, upd (map f ax) (index_of a ax) v = map (fun b => if Nat.eqb b a then v else f b) ax).
  { intros f v. apply (nth_ext _ _ 0 0); [now rewrite upd_length, !map_length|]. intros k Hk. rewrite upd_length, map_length in Hk.
    rewrite (nth_map_in (fun b => if Nat.eqb b a then v else f b) _ _ _ 0) by exact Hk.
    destruct (Nat.eq_dec k (index_of a ax)) as [->|Nk].
    - rewrite upd_nth, Nat.eqb_refl, (proj2 (Nat.ltb_lt _ _)) by (now rewrite map_length). now rewrite Q2, Nat.eqb_refl.
    - rewrite upd_nth. destruct (Nat.eqb_spec (index_of a ax) k) as [|_]; [congruence|]. rewrite (nth_map_in _ _ _ _ 0) by exact Hk.
      destruct (Nat.eqb_spec (nth k ax 0) a) as [E|]; [|reflexivity]. exfalso. apply Nk. rewrite <- E. symmetry. now apply index_of_nth. }
  assert (ES : gshape (slice_from d (index_of a ax) pad g) = map sh ax).
  { unfold slice_from. cbn [gtabulate gshape]. rewrite H2, U, (nth_map_in _ _ _ _ 0), Q2 by exact Q1. apply map_ext. intros b. unfold sh, shp.
    rewrite Nat.eqb_refl. destruct (Nat.eqb_spec b a); [lia|now apply Es]. }
  split; [apply gtabulate_ok|]. split; [exact ES|]. fold ax. fold sh. intros env I.
  unfold slice_from. rewrite gget_gtabulate.
  2: { change (valid (gshape (slice_from d (index_of a ax) pad g)) (map env ax)). rewrite ES. now apply inside_valid. }
  rewrite U, (nth_map_in _ _ _ _ 0), Q2 by exact Q1.
  destruct (H3 (fun b => if Nat.eqb b a then env a + pad else env b)) as (rows & b & E1 & E2 & E3).
  { intros b Hb. specialize (I b Hb). unfold sh in I. unfold shp. destruct (Nat.eqb_spec b a) as [Ea|]; [subst; lia|]. now rewrite Es. }
  rewrite Nat.eqb_refl in E2. rewrite E3. exists (skipn pad rows), b. split; [|split].
  - rewrite <- (Hr (fun b => if Nat.eqb b a then env a + pad else env b) env), E1; [reflexivity|].
    intros x _ Hx. destruct (Nat.eqb_spec x a) as [->|]; [|reflexivity]. cbn in Hx. tauto.
  - rewrite nth_error_skipn. rewrite <- E2. f_equal. lia.
  - f_equal. apply map_ext_in. intros c Hc. destruct (Nat.eqb_spec c a) as [->|]; [|reflexivity]. inversion N. tauto.
Qed.

Lemma view_ext t ax sh sh' f f' : view t ax sh f -> (forall b, In b ax -> sh b = sh' b) ->
  (forall env, inside sh' ax env -> f env = f' env) -> view t ax sh' f'.
Proof.
  intros (H1 & H2 & H3) Hs Hf. split; [exact H1|]. split; [rewrite H2; now apply map_ext_in|].
  intros env I. rewrite <- Hf by exact I. apply H3. intros b Hb. rewrite Hs by exact Hb. now apply I.
Qed.
(* padding along a named axis *)
Definition padded (sh : nat -> nat) (a pad : nat) (b : nat) : nat := if Nat.eqb b a then sh a + pad else sh b.
Lemma pad_view t ax sh f a pad : view t ax sh f -> NoDup ax -> In a ax ->
  view (pad_along (index_of a ax) pad t) ax (padded sh a pad) (fun env => if Nat.ltb (env a) (sh a) then f env else 0%Qc).
Proof.
  intros (H1 & H2 & H3) N Ha. destruct (index_of_lt a ax Ha) as [Q1 Q2].
  assert (E : upd (tshape t) (index_of a ax) (nth (index_of a ax) (tshape t) 0 + pad) = map (padded sh a pad) ax).
  { rewrite H2. rewrite (nth_map_in _ _ _ _ 0), Q2 by exact Q1.
    apply (nth_ext _ _ 0 0); [now rewrite upd_length, !map_length|]. intros k Hk. rewrite upd_length, map_length in Hk.
    rewrite (nth_map_in (padded sh a pad) _ _ _ 0) by exact Hk. unfold padded.
    destruct (Nat.eq_dec k (index_of a ax)) as [->|Nk].
    - rewrite upd_nth, Nat.eqb_refl, (proj2 (Nat.ltb_lt _ _)) by (now rewrite map_length). now rewrite Q2, Nat.eqb_refl.
    - rewrite upd_nth. destruct (Nat.eqb_spec (index_of a ax) k) as [|_]; [congruence|]. rewrite (nth_map_in _ _ _ _ 0) by exact Hk.
      destruct (Nat.eqb_spec (nth k ax 0) a) as [E|]; [|reflexivity]. exfalso. apply Nk. rewrite <- E. symmetry. now apply index_of_nth. }
  unfold pad_along. rewrite E. split; [apply tabulate_ok|]. split; [reflexivity|]. intros env I.
  rewrite tget_tabulate by now apply inside_valid. rewrite (nth_map_in _ _ _ _ 0), Q2 by exact Q1.
  rewrite H2, (nth_map_in _ _ _ _ 0), Q2 by exact Q1. destruct (Nat.ltb_spec (env a) (sh a)) as [Hl|]; [|reflexivity].
  apply H3. intros b Hb. specialize (I b Hb). unfold padded in I. destruct (Nat.eqb_spec b a) as [Eb|]; [subst; exact Hl|exact I].
Qed.
Lemma ma_zero {A V} (K : pusher A V) ok P : moment_array K ok P -> forall f, (forall m, valid (pk_shape P) m -> f m = 0%Qc) -> pk_pack P f = p_zero K.
Proof.
  intros HM f Hf. rewrite (proj1 (ma_packer _ _ _ HM) f (fun _ => 0%Qc)) by exact Hf. clear f Hf.
  assert (R : forall {X} (x : X) l, map (fun _ : nat => x) l = repeat x (length l)).
  { intros X x l. induction l as [|y l IH]; [reflexivity|]. cbn. now rewrite IH. }
  destruct HM; cbn [packer1 packer2 pk_pack pusher1 pusher2 p_zero].
  - rewrite R, seq_length. reflexivity.
  - rewrite R, R, !seq_length. reflexivity.
Qed.
Lemma rows_one {A} (P : packer A) t a M env :
  rows_along P t [a] M env = map (fun i => moment_at P t M (bind [a] [i] env)) (seq 0 (shape_of t a)).
Proof.
  unfold rows_along. cbn [map all_idx]. generalize (seq 0 (shape_of t a)). intros l. induction l as [|i l IH]; [reflexivity|].
  cbn. f_equal. exact IH.
Qed.

Section Pad.
  Context {A V : Type} (K : pusher A V) (ok : A -> Prop) (P : packer A) (HM : moment_array K ok P).
  Context (mom_axes : list Z) (axis : axis_arg) (a : nat) (M : list nat) (t : tensor) (pad : nat).
  Hypothesis HA : axis_of_moments P mom_axes axis a M t.
  Let tp := pad_along a pad t.

  Lemma pad_ndim : tndim tp = tndim t.
  Proof. unfold tp, pad_along, tndim. cbn [tabulate tshape]. apply upd_length. Qed.
  Lemma pad_bound : a < tndim t.
  Proof. destruct HA as (_ & _ & H & _). exact (names_axis_lt _ _ _ _ H). Qed.
  Lemma pad_index : index_of a (seq 0 (tndim t)) = a.
  Proof. pose proof pad_bound as H. pose proof (index_of_nth (seq 0 (tndim t)) a (seq_NoDup _ _)) as X. rewrite seq_length, seq_nth in X by exact H. exact (X H). Qed.
  Lemma pad_shape b : shape_of tp b = padded (shape_of t) a pad b.
  Proof.
    unfold tp, pad_along, shape_of, padded. cbn [tabulate tshape]. rewrite upd_nth, (Nat.eqb_sym b a).
    destruct (Nat.eqb_spec a b) as [<-|]; [|reflexivity]. pose proof pad_bound as H. unfold tndim in H. now apply Nat.ltb_lt in H; rewrite H.
  Qed.
  Lemma pad_entry env : inside (shape_of tp) (seq 0 (tndim t)) env ->
    entry tp env = if Nat.ltb (env a) (shape_of t a) then entry t env else 0%Qc.
  Proof.
    intros I. destruct HA as (Ht & _). pose proof (pad_view t (seq 0 (tndim t)) (shape_of t) (entry t) a pad (view_self t Ht) (seq_NoDup _ _)) as X.
    rewrite pad_index in X. destruct X as (_ & _ & X); [apply in_seq; pose proof pad_bound; lia|].
    unfold entry at 1. rewrite pad_ndim. apply X. intros b Hb. rewrite <- pad_shape. now apply I.
  Qed.
  Lemma pad_axis : axis_of_moments P mom_axes axis a M tp.
  Proof.
    destruct HA as (Ht & H1 & H2 & N & SM). unfold axis_of_moments. rewrite pad_ndim.
    split; [apply tabulate_ok|]. split; [exact H1|]. split; [exact H2|]. split; [exact N|]. rewrite <- SM. apply map_ext_in. intros b Hb.
    rewrite pad_shape. unfold padded. destruct (Nat.eqb_spec b a) as [->|]; [inversion N; tauto|reflexivity].
  Qed.
  Lemma pad_rows env : inside (shape_of t) (except_nat (seq 0 (tndim t)) (a :: M)) env ->
    rows_along P tp [a] M env = rows_along P t [a] M env ++ repeat (p_zero K) pad.
  Proof.
    intros I. rewrite !rows_one, pad_shape. unfold padded. rewrite Nat.eqb_refl, seq_app, map_app. cbn [plus].
    destruct HA as (Ht & H1 & H2 & N & SM). inversion N as [|? ? Na NM]; subst.
    assert (IN : forall i m, i < shape_of t a + pad -> valid (pk_shape P) m -> inside (shape_of tp) (seq 0 (tndim t)) (bind M m (bind [a] [i] env))).
    { intros i m Hi Hm b Hb. rewrite <- SM in Hm. pose proof (valid_length _ _ Hm) as Lm. rewrite map_length in Lm. rewrite pad_shape. unfold padded.
      destruct (in_dec Nat.eq_dec b M) as [C|C].
      - rewrite bind_in by assumption. destruct (Nat.eqb_spec b a) as [E|]; [subst; tauto|]. now apply valid_nth_index.
      - rewrite bind_out by exact C. destruct (Nat.eqb_spec b a) as [E|Nb].
        + subst. cbn. unfold bind. cbn. now rewrite Nat.eqb_refl.
        + rewrite bind_out by (intros [X|[]]; congruence). apply I. apply except_In. split; [exact Hb|]. intros [X|X]; [congruence|tauto]. }
    assert (BA : forall i m, bind M m (bind [a] [i] env) a = i).
    { intros i m. rewrite bind_out by exact Na. unfold bind. cbn. now rewrite Nat.eqb_refl. }
    f_equal.
    - apply map_ext_in. intros i Hi. apply in_seq in Hi. unfold moment_at. apply (proj1 (ma_packer _ _ _ HM)). intros m Hm.
      rewrite pad_entry by (apply IN; [lia|exact Hm]). rewrite BA, (proj2 (Nat.ltb_lt _ _)) by lia. reflexivity.
    - assert (R : forall l, (forall i, In i l -> shape_of t a <= i < shape_of t a + pad) ->
        map (fun i => moment_at P tp M (bind [a] [i] env)) l = repeat (p_zero K) (length l)).
      2: { rewrite (R (seq (shape_of t a) pad)); [now rewrite seq_length|]. intros i Hi. now apply in_seq in Hi. }
      induction l as [|i l IH]; intros Hl; [reflexivity|]. cbn [map length repeat]. rewrite IH by (intros j Hj; apply Hl; now right). f_equal.
      assert (Hi := Hl i (or_introl eq_refl)).
      unfold moment_at. apply (ma_zero _ _ _ HM). intros m Hm. rewrite pad_entry by (apply IN; [lia|exact Hm]).
      rewrite BA. destruct (Nat.ltb_spec i (shape_of t a)); [lia|reflexivity].
  Qed.
End Pad.

Lemma by_columns_rmap {B T B' T'} (d : T) (d' : T') (val : B -> list nat -> T) (val' : B' -> list nat -> T') run run' to_end newlen newlen' a M t tp F r :
  (forall g, holds_columns d val run to_end newlen a M tp g -> holds_columns d' val' run' to_end newlen' a M t (F g)) ->
  (forall env e, inside (shape_of tp) (except_nat (seq 0 (tndim tp)) (a :: M)) env -> run env = Raise e ->
     inside (shape_of t) (except_nat (seq 0 (tndim t)) (a :: M)) env /\ run' env = Raise e) ->
  by_columns d val run to_end newlen a M tp r -> by_columns d' val' run' to_end newlen' a M t (rmap F r).
Proof.
  intros H1 H2. destruct r as [g|e]; cbn; [apply H1|]. intros (env & I & E). exists env. now apply H2.
Qed.

Theorem rolling_array : forall {A V} (K : pusher A V) ok P, moment_array K ok P ->
  forall window min_periods (center : bool) zero mom_axes axis to_end a M t, axis_of_moments P mom_axes axis a M t -> (0 <= window)%Z ->
  (center = false \/ (0 < window)%Z ->
   by_columns None (row_entry P zero)
    (fun env => if center then rolling_data_center K window min_periods (rows_along P t [a] M env)
                else of_opt EZeroDiv (rolling_data K (Z.to_nat window) (match min_periods with None => window | Some k => k end) (rows_along P t [a] M env)))
    to_end (shape_of t a) a M t (rolling_data_nd K P window min_periods center zero axis mom_axes to_end t)) /\
  (center = true -> window = 0%Z -> rolling_data_nd K P window min_periods center zero axis mom_axes to_end t = Raise EValue).
Proof.
  intros A V K ok P HM window mp center zero mom_axes axis to_end a M t HA Hw. pose proof (ma_packer _ _ _ HM) as HP.
  destruct (prepare_data_view P mom_axes axis to_end a M t HA) as (za & mom' & t' & E & VW & F & Eza). cbv zeta in VW, F, Eza.
  pose proof HA as HA'. destruct HA' as (Ht & H1 & H2 & N & SM).
  pose proof (col_bound P mom_axes axis a M t HA) as Bd.
  destruct (column_axes_incl to_end (tndim t) a M N Bd) as [NX IX].
  set (ax := column_axes to_end (tndim t) a M) in *.
  unfold rolling_data_nd. rewrite E. cbn [rbind]. set (mc := match mp with None => window | Some k => k end).
  destruct center.
  - split.
    2: { intros _ ->. reflexivity. }
    intros [|Hw']; [discriminate|]. cbn [andb].
    assert (Hs : (0 <= - center_shift window)%Z).
    { unfold center_shift. pose proof (Z.div_mod (- window) 2 ltac:(lia)). pose proof (Z.mod_pos_bound (- window) 2 ltac:(lia)). lia. }
    destruct (Z.ltb_spec (- center_shift window) 0) as [|_]; [lia|]. set (pad := Z.to_nat (- center_shift window)).
    replace (Z.to_nat za) with (index_of a ax) by (rewrite Eza; lia).
    set (u := pad_along (index_of a ax) pad t'). set (tp := pad_along a pad t).
    assert (En : tndim tp = tndim t) by (apply pad_ndim).
    assert (Sp : forall b, shape_of tp b = padded (shape_of t) a pad b) by (intros b; eapply pad_shape; eassumption).
    assert (VP : view u ax (shape_of tp) (entry tp)).
    { eapply view_ext.
      - apply pad_view; [exact VW|exact NX|apply IX; now left].
      - intros b _. symmetry. apply Sp.
      - intros env I. symmetry. eapply pad_entry; [eassumption|]. intros b Hb. apply I.
        apply (Permutation_in _ (Permutation_sym (column_axes_perm to_end (tndim t) a M N Bd))). exact Hb. }
    assert (HAp : axis_of_moments P mom_axes axis a M tp) by (now apply pad_axis).
    assert (Eu : tndim u = tndim t) by (rewrite (view_ndim _ _ _ _ VP); apply (perm_range _ _ (column_axes_perm to_end (tndim t) a M N Bd))).
    rewrite Eu, (normalize_dup _ _ (map (fun c => index_of c ax) M)) by (inversion F; assumption). cbn [rbind].
    assert (DU : dim_at u za = shape_of t a + pad).
    { unfold ax in *. rewrite <- En in VP, Eza. rewrite (col_dim P mom_axes axis to_end a M tp u za HAp VP Eza), Sp. unfold padded. now rewrite Nat.eqb_refl. }
    rewrite DU.
    set (run := fun env => of_opt EZeroDiv (rolling_data K (Z.to_nat window) mc (rows_along P tp [a] M env))).
    apply (by_columns_rmap None None (row_entry P false) (row_entry P zero)
             (fun env => rmap (skipn pad) (run env)) _ to_end (shape_of t a) (shape_of t a) a M t t).
    { intros g Hg. apply zero_missing_columns; [exact N|exact Bd|].
      assert (X : by_columns None (row_entry P false) (fun env => rmap (skipn pad) (run env)) to_end (shape_of t a) a M t (Ok g)) by exact Hg.
      eapply by_columns_ext in X; [exact X|]. intros env I. unfold rolling_data_center, run. fold mc.
      destruct (Z.ltb_spec (- center_shift window) 0) as [|_]; [lia|]. fold pad.
      pose proof (pad_rows K ok P HM mom_axes axis a M t pad HA env I) as PR. fold tp in PR. rewrite PR. reflexivity. }
    { intros env e I Hr. split; [exact I|]. unfold rolling_data_center. fold mc.
      destruct (Z.ltb_spec (- center_shift window) 0) as [|_]; [lia|]. fold pad.
      pose proof (pad_rows K ok P HM mom_axes axis a M t pad HA env I) as PR. fold tp in PR. rewrite <- PR. exact Hr. }
    apply (by_columns_rmap None None (row_entry P false) (row_entry P false) run (fun env => rmap (skipn pad) (run env))
             to_end (shape_of t a + pad) (shape_of t a) a M t tp).
    { intros g Hg. apply (slice_columns None (row_entry P false) run to_end (shape_of t a) pad a M t tp g N Bd En).
      - intros b Hb. rewrite Sp. unfold padded. destruct (Nat.eqb_spec b a); [congruence|reflexivity].
      - intros e e' He. unfold run. rewrite (rows_col_ext P HP tp a M e e' N); [reflexivity| |rewrite En; exact He]. apply HAp.
      - exact Hg. }
    { intros env e I Hr. split; [|now rewrite Hr]. intros b Hb. rewrite En in I. specialize (I b Hb). rewrite Sp in I. unfold padded in I.
      destruct (Nat.eqb_spec b a) as [Eb|]; [|exact I]. subst. apply except_In in Hb. cbn in Hb. tauto. }
    unfold ax in *. rewrite <- En in VP, Eza, F.
    pose proof (columns_one P HP mom_axes axis to_end a M tp u za mom' HAp VP F Eza None (row_entry P false) (row_elem_opt P) (row_elem_opt_val P)
      (fun col => of_opt EZeroDiv (rolling_data K (Z.to_nat window) mc col)) (shape_of t a + pad)) as X.
    rewrite DU in X. apply X. intros col rows Hc. rewrite Sp in Hc. unfold padded in Hc. rewrite Nat.eqb_refl in Hc.
    destruct (rolling_data K _ mc col) as [r|] eqn:Er; cbn; [|discriminate]. intros [= <-]. now rewrite (rolling_length _ _ _ _ _ Er).
  - split; [|discriminate]. intros _. cbn [andb].
    assert (Et : tndim t' = tndim t) by (rewrite (view_ndim _ _ _ _ VW); apply (perm_range _ _ (column_axes_perm to_end (tndim t) a M N Bd))).
    rewrite Et, (normalize_dup _ _ (map (fun c => index_of c ax) M)) by (inversion F; assumption). cbn [rbind].
    rewrite (col_dim P mom_axes axis to_end a M t t' za HA VW Eza).
    set (run := fun env => of_opt EZeroDiv (rolling_data K (Z.to_nat window) mc (rows_along P t [a] M env))).
    apply (by_columns_rmap None None (row_entry P false) (row_entry P zero) run run to_end (shape_of t a) (shape_of t a) a M t t).
    { intros g Hg. now apply zero_missing_columns. }
    { auto. }
    pose proof (columns_one P HP mom_axes axis to_end a M t t' za mom' HA VW F Eza None (row_entry P false) (row_elem_opt P) (row_elem_opt_val P)
      (fun col => of_opt EZeroDiv (rolling_data K (Z.to_nat window) mc col)) (shape_of t a)) as X.
    rewrite (col_dim P mom_axes axis to_end a M t t' za HA VW Eza) in X. unfold rmap at 1. rewrite rbind_id. apply X. intros col rows Hc.
    destruct (rolling_data K _ mc col) as [r|] eqn:Er; cbn; [|discriminate]. intros [= <-]. now rewrite (rolling_length _ _ _ _ _ Er).
Qed.

Lemma tensor_full n v : tensor_ok (full n v) /\ tshape (full n v) = [n] /\ forall i, i < n -> tget (full n v) [i] = v.
Proof.
  split; [apply tabulate_ok|]. split; [reflexivity|]. intros i Hi. unfold full. rewrite tget_tabulate; [reflexivity|].
  constructor; [exact Hi|constructor].
Qed.
Theorem rolling_exp_array : forall {A V} (K : pusher A V) ok P, moment_array K ok P ->
  forall alpha alpha_axis b adjust min_periods zero mom_axes axis to_end a M t, axis_of_moments P mom_axes axis a M t ->
  let L := except_nat (seq 0 (tndim t)) (a :: M) in
  tndim alpha = 0 \/ decay_axis alpha alpha_axis b /\ aligns alpha [b] L (shape_of t) ->
  (tndim alpha = 0 \/ shape_of alpha b = shape_of t a ->
   by_columns None (row_entry P zero)
    (fun env => of_opt EZeroDiv (rolling_exp_data K adjust (match min_periods with None => 1%Z | Some k => Z.max 1 k end)
                                   (combine (decays alpha b (shape_of t a) L env) (rows_along P t [a] M env))))
    to_end (shape_of t a) a M t (rolling_exp_data_nd K P alpha alpha_axis adjust min_periods zero axis mom_axes to_end t)) /\
  (tndim alpha <> 0 -> shape_of alpha b <> shape_of t a ->
   rolling_exp_data_nd K P alpha alpha_axis adjust min_periods zero axis mom_axes to_end t = Raise EValue).
Proof.
  intros A V K ok P HM alpha alpha_axis b adjust mp zero mom_axes axis to_end a M t HA L HB. pose proof (ma_packer _ _ _ HM) as HP.
  destruct (prepare_data_view P mom_axes axis to_end a M t HA) as (za & mom' & t' & E & VW & F & Eza). cbv zeta in VW, F, Eza.
  pose proof HA as HA'. destruct HA' as (Ht & H1 & H2 & N & SM).
  pose proof (col_bound P mom_axes axis a M t HA) as Bd.
  unfold rolling_exp_data_nd, rolling_exp_data_at. rewrite E. cbn [rbind]. set (mc := match mp with None => 1%Z | Some k => Z.max 1 k end).
  rewrite (col_dim P mom_axes axis to_end a M t t' za HA VW Eza).
  assert (Et : tndim t' = tndim t) by (rewrite (view_ndim _ _ _ _ VW); apply (perm_range _ _ (column_axes_perm to_end (tndim t) a M N Bd))).
  assert (PA : exists aa al c, prepare_alpha alpha_axis (shape_of t a) false alpha = Ok (aa, al) /\ is_axis (tndim al) aa c /\
     aligns al [c] L (shape_of t) /\
     shape_of al c = (if Nat.eqb (tndim alpha) 0 then shape_of t a else shape_of alpha b) /\
     (shape_of al c = shape_of t a -> forall env i, i < shape_of t a ->
       aligned_entry al [c] L env [i] = (if Nat.eqb (tndim alpha) 0 then tget alpha [] else aligned_entry alpha [b] L env [i]))).
  { unfold prepare_alpha. destruct (Nat.eqb_spec (tndim alpha) 0) as [Z|Z].
    - destruct (tensor_full (shape_of t a) (tget alpha [])) as (G1 & G2 & G3).
      set (u := full (shape_of t a) (tget alpha [])) in *.
      assert (Nu : tndim u = 1) by (unfold tndim; now rewrite G2). assert (Su : shape_of u 0 = shape_of t a) by (unfold shape_of at 1; now rewrite G2).
      exists (-1)%Z, u, 0. split; [reflexivity|]. unfold aligns, aligned_entry, entry. rewrite Nu.
      split; [split; [lia|right; lia]|]. split; [|split].
      + split; [exact G1|]. split; [repeat constructor; intros []|]. split; [intros c [<-|[]]; lia|]. cbn. split; [lia|intros p []].
      + exact Su.
      + intros _ env i Hi. cbn. now apply G3.
    - destruct HB as [|[HB HL]]; [tauto|]. destruct alpha_axis as [x|]; cbn [decay_axis] in HB.
      + destruct (Nat.eqb_spec (tndim alpha) 1) as [O|O].
        * exists (-1)%Z, alpha, b. split; [reflexivity|]. split; [split; [lia|right; lia]|]. auto.
        * assert (Ex : normalize_axis_index x (tndim alpha) None = Ok b) by (now apply normalize_index_ok). rewrite Ex. cbn [rbind andb].
          eexists _, alpha, b. split; [reflexivity|]. split; [|auto].
          assert (b < tndim alpha) by exact (names_axis_lt _ _ _ _ HB).
          unfold positive_to_negative_index. destruct (Z.ltb_spec (Z.of_nat b) 0); [lia|]. split; [lia|right; lia].
      + exists (-1)%Z, alpha, b. split; [reflexivity|]. split; [split; [lia|right; lia]|]. auto. }
  destruct PA as (aa & al & c & EP & Hc & HL & Hs & Hv). rewrite EP. cbn [rbind].
  assert (ES : shape_at al aa = Ok (shape_of al c)).
  { unfold shape_at. rewrite (zread_ok _ _ 0).
    - f_equal. unfold shape_of, wrap, tndim in *. destruct Hc as [Hc1 [Hc2|Hc2]].
      + subst aa. destruct (Z.ltb_spec (Z.of_nat c) 0); [lia|]. now rewrite Nat2Z.id.
      + destruct (Z.ltb_spec aa 0); [|lia]. f_equal. lia.
    - unfold is_axis, tndim in Hc. lia. }
  rewrite ES. cbn [rbind]. split.
  - intros HC. assert (Hs' : shape_of al c = shape_of t a).
    { rewrite Hs. destruct (Nat.eqb_spec (tndim alpha) 0); [reflexivity|]. destruct HC; [tauto|assumption]. }
    rewrite Hs', Nat.eqb_refl. cbn [negb].
    set (g := fun (f : list nat -> Qc) (col : list A) => of_opt EZeroDiv (rolling_exp_data K adjust mc (combine (map (fun i => f [i]) (seq 0 (shape_of t a))) col))).
    set (run := fun env => g (aligned_entry al [c] L env) (rows_along P t [a] M env)).
    assert (X : by_columns None (row_entry P false) run to_end (shape_of t a) a M t
      (gufunc None [(al, [aa]); (t', za :: mom')] (za :: mom') (shape_of t a :: pk_shape P) (fun l => rmap (row_elem_opt P) (of_opt EZeroDiv (rolling_exp_data K adjust mc (combine (map (fun i => acc l 0 [i]) (seq 0 (shape_of t a))) (core_rows P (shape_of t a) (acc l 1)))))))).
    { pose proof (columns_two P HP mom_axes axis to_end a M t t' za mom' HA VW F Eza None (row_entry P false) (row_elem_opt P) (row_elem_opt_val P)
        al [aa] [c] g (shape_of t a)) as X.
      rewrite (col_dim P mom_axes axis to_end a M t t' za HA VW Eza) in X. apply X.
      + exact HL.
      + constructor; [exact Hc|constructor].
      + intros f h col Hfh. unfold g. do 3 f_equal. apply map_ext. intros i. now apply Hfh.
      + intros f col rows Hcol. unfold g. destruct (rolling_exp_data K adjust mc _) as [r|] eqn:Er; cbn; [|discriminate]. intros [= <-].
        rewrite (rolling_exp_length _ _ _ _ _ Er), combine_length, map_length, seq_length. lia. }
    match type of X with by_columns _ _ _ _ _ _ _ _ ?q => assert (EQ : rbind q (fun g => rmap (fun momn => zero_missing momn zero g) (normalize_axis_tuple (Some (map AInt mom')) (length (gshape g)) None true)) =
      rmap (zero_missing (map (fun c => index_of c (column_axes to_end (tndim t) a M)) M) zero) q) end.
    { match type of X with by_columns _ _ _ _ _ _ _ _ ?q => destruct q as [q0|]; [|reflexivity] end. cbn [rbind]. destruct X as (_ & X & _). rewrite X, map_length.
      assert (LA : length (column_axes to_end (tndim t) a M) = tndim t) by apply (perm_range _ _ (column_axes_perm to_end (tndim t) a M N Bd)). rewrite LA. rewrite (normalize_dup _ _ (map (fun c => index_of c (column_axes to_end (tndim t) a M)) M)) by (cbn [map] in F; inversion F; assumption). reflexivity. }
    rewrite EQ. clear EQ. revert X.
    apply (by_columns_rmap None None (row_entry P false) (row_entry P zero) run _ to_end (shape_of t a) (shape_of t a) a M t t).
    { intros q Hq. apply zero_missing_columns; [exact N|exact Bd|].
      assert (X : by_columns None (row_entry P false) run to_end (shape_of t a) a M t (Ok q)) by exact Hq.
      eapply by_columns_ext in X; [exact X|]. intros env I. unfold run, g, decays. do 3 f_equal. apply map_ext_in.
      intros i Hi. apply in_seq in Hi. apply Hv; [exact Hs'|lia]. }
    { intros env e I <-. split; [exact I|]. unfold run, g, decays. do 3 f_equal. apply map_ext_in.
      intros i Hi. apply in_seq in Hi. symmetry. apply Hv; [exact Hs'|lia]. }
  - intros Z Hne. destruct (Nat.eqb_spec (tndim alpha) 0); [tauto|]. rewrite Hs.
    destruct (Nat.eqb_spec (shape_of alpha b) (shape_of t a)); [tauto|reflexivity].
Qed.

(* ---- bad axes ------------------------------------------------------------------------------ *)

Definition no_axis (mom_axes : list Z) (axis : axis_arg) (t : tensor) : Prop :=
  ~ exists a M, Forall2 (is_axis (tndim t)) mom_axes M /\ names_axis (tndim t) (length mom_axes) axis a /\ NoDup (a :: M).
Lemma tuple_ints n l r : normalize_axis_tuple (Some (map AInt l)) n None false = Ok r -> Forall2 (is_axis n) l r /\ NoDup r.
Proof.
  intros H. apply normalize_tuple_ok in H. destruct H as [H N]. split; [|exact N]. clear N. revert r H.
  induction l as [|x l IH]; intros r H; inversion H; subst; constructor; auto.
Qed.
Lemma names_of_index n m x a : normalize_axis_index x n (Some m) = Ok a -> names_axis n m x a.
Proof. intros H. now apply normalize_index_ok in H. Qed.
Lemma core_axes_err g e : core_axes g = Raise e -> e = EValue.
Proof.
  unfold core_axes. destruct (normalize_axis_tuple _ _ _ _) as [c|e'] eqn:E; cbn [rbind]; [discriminate|]. intros [= <-].
  exact (normalize_tuple_err _ _ _ _ _ E).
Qed.
Lemma no_axis_core mom_axes axis t a n : no_axis mom_axes axis t -> normalize_axis_index axis (tndim t) (Some (length mom_axes)) = Ok a ->
  n = tndim t -> normalize_axis_tuple (Some (map AInt (Z.of_nat a :: mom_axes))) n None false = Raise EValue.
Proof.
  intros H Ea ->. destruct (normalize_axis_tuple _ _ _ _) as [r|e] eqn:E; [|now rewrite (normalize_tuple_err _ _ _ _ _ E)].
  exfalso. apply tuple_ints in E. destruct E as [E N]. inversion E as [|? b ? M Hb HM]; subst. apply H. exists a, M.
  apply names_of_index in Ea. split; [exact HM|]. split; [exact Ea|]. assert (a = b) by (unfold is_axis in Hb; lia). now subst.
Qed.
Lemma no_axis_prepare mom_axes axis to_end t : no_axis mom_axes axis t ->
  prepare_data axis mom_axes to_end t = Raise EValue \/
  exists a, prepare_data axis mom_axes to_end t = Ok (Z.of_nat a, mom_axes, t) /\
    forall u, tndim u = tndim t -> core_axes (u, Z.of_nat a :: mom_axes) = Raise EValue.
Proof.
  intros H. unfold prepare_data. destruct (normalize_axis_index axis (tndim t) (Some (length mom_axes))) as [a|e] eqn:Ea; cbn [rbind].
  2: { left. now rewrite (normalize_index_err _ _ _ _ Ea). }
  destruct to_end.
  - left. unfold np_moveaxis, moveaxis_order. now rewrite (no_axis_core _ _ _ _ _ H Ea eq_refl).
  - right. exists a. split; [reflexivity|]. intros u Eu. unfold core_axes. cbn [fst snd]. now rewrite (no_axis_core _ _ _ _ _ H Ea Eu).
Qed.
Lemma gufunc_bad {T} (d : T) args g out cs f : In g args -> core_axes g = Raise EValue -> gufunc d args out cs f = Raise EValue.
Proof.
  intros Hg Eg. unfold gufunc. destruct (mapR core_axes args) as [ins|e] eqn:E; cbn [rbind].
  - exfalso. apply mapR_Forall2 in E. induction E as [|x y l r Hx E IH]; [destruct Hg|]. destruct Hg as [->|Hg]; [congruence|now apply IH].
  - now rewrite (mapR_err_all EValue core_axes args e core_axes_err E).
Qed.

Lemma prepare_alpha_err ax n al e : prepare_alpha ax n false al = Raise e -> e = EValue.
Proof.
  unfold prepare_alpha. destruct (Nat.eqb (tndim al) 0); [discriminate|]. destruct ax as [x|]; [|discriminate].
  destruct (Nat.eqb (tndim al) 1); [discriminate|]. destruct (normalize_axis_index x (tndim al) None) as [a|e'] eqn:E; cbn [rbind andb]; [discriminate|].
  intros [= <-]. exact (normalize_index_err _ _ _ _ E).
Qed.
Lemma prepare_alpha_dim ax n al aa al' : prepare_alpha ax n false al = Ok (aa, al') -> exists k, shape_at al' aa = Ok k.
Proof.
  unfold prepare_alpha, shape_at. destruct (Nat.eqb_spec (tndim al) 0) as [Z|Z].
  - intros [= <- <-]. eexists. reflexivity.
  - assert (G : forall aa, (- Z.of_nat (tndim al) <= aa < Z.of_nat (tndim al))%Z -> exists k, match zread (tshape al) aa with Ok n => Ok n | Raise _ => Raise EIndex end = Ok k).
    { intros x Hx. rewrite (zread_ok _ _ 0) by exact Hx. eexists. reflexivity. }
    destruct ax as [x|].
    + destruct (Nat.eqb (tndim al) 1); [intros [= <- <-]; apply G; lia|].
      destruct (normalize_axis_index x (tndim al) None) as [a|e'] eqn:E; cbn [rbind andb]; [|discriminate]. intros [= <- <-]. apply G.
      apply normalize_index_ok in E. apply names_axis_lt in E. unfold positive_to_negative_index. destruct (Z.ltb_spec (Z.of_nat a) 0); lia.
    + intros [= <- <-]. apply G. lia.
Qed.
Theorem axis_must_name_a_data_axis : forall {A V} (K : pusher A V) ok P, moment_array K ok P ->
  forall mom_axes axis to_end t, no_axis mom_axes axis t ->
  (forall inverse, cumulative_nd K P inverse axis mom_axes to_end t = Raise EValue) /\
  (forall freq, tndim freq = 2 -> resample_data_nd K P freq axis mom_axes to_end t = Raise EValue) /\
  (forall by_, reduce_data_grouped_nd K P by_ axis mom_axes to_end t = Raise EValue) /\
  (forall index start end_ scale, reduce_data_indexed_nd K P index start end_ scale axis mom_axes to_end t = Raise EValue) /\
  jackknife_data_nd K P None axis mom_axes to_end t = Raise EValue /\
  (forall r mr, jackknife_data_nd K P (Some (r, mr)) axis mom_axes to_end t = Raise EValue) /\
  (forall window mp center zero, rolling_data_nd K P window mp center zero axis mom_axes to_end t = Raise EValue) /\
  (forall alpha alpha_axis adjust mp zero, rolling_exp_data_nd K P alpha alpha_axis adjust mp zero axis mom_axes to_end t = Raise EValue).
Proof.
  intros A V K ok P HM mom_axes axis to_end t H. pose proof (no_axis_prepare mom_axes axis to_end t H) as HP.
  assert (D : forall {B T} (d : T) (pre : list garg) a out cs f,
    (forall u, tndim u = tndim t -> core_axes (u, Z.of_nat a :: mom_axes) = Raise EValue) ->
    forall (F : grid T -> B) u, tndim u = tndim t -> rmap F (gufunc d (pre ++ [(u, Z.of_nat a :: mom_axes)]) out cs f) = Raise EValue).
  { intros B T d pre a out cs f Hu F u Eu. rewrite (gufunc_bad d _ (u, Z.of_nat a :: mom_axes)); [reflexivity| |now apply Hu].
    apply in_or_app. right. now left. }
  assert (J : forall red, rbind (prepare_data axis mom_axes to_end t) (fun '(a, mom, t) =>
    rmap to_tensor (gufunc 0%Qc [red; (t, a :: mom)] (a :: mom) (dim_at t a :: pk_shape P) (fun l =>
      rmap (row_elem K P) (of_opt EZeroDiv (jackknife_data_from K (pk_pack P (acc l 0)) (core_rows P (dim_at t a) (acc l 1))))))) = Raise EValue).
  { intros red. destruct HP as [->|(a & -> & Hc)]; cbn [rbind]; [reflexivity|]. now apply (D _ _ 0%Qc [red]). }
  split; [|split; [|split; [|split; [|split; [|split; [|split]]]]]].
  - intros inverse. unfold cumulative_nd. destruct HP as [->|(a & -> & Hc)]; cbn [rbind]; [reflexivity|].
    now apply (D _ _ 0%Qc []).
  - intros freq Hf. unfold resample_data_nd, resample_data_at. destruct HP as [->|(a & -> & Hc)]; cbn [rbind]; [reflexivity|].
    unfold shape_at. change (-2)%Z with (- Z.of_nat 2)%Z. change (-1)%Z with (- Z.of_nat 1)%Z. unfold tndim in Hf.
    rewrite !(zread_neg _ _ 0) by lia. cbn [rbind]. destruct (negb _); [reflexivity|]. now apply (D _ _ 0%Qc [_]).
  - intros by_. unfold reduce_data_grouped_nd. destruct HP as [->|(a & -> & Hc)]; cbn [rbind]; [reflexivity|].
    destruct (negb _); [reflexivity|]. destruct by_ as [|b l]; cbn [zmax rbind]; [reflexivity|].
    destruct (_ <? 0)%Z; [reflexivity|]. now apply (D _ _ 0%Qc []).
  - intros index start end_ scale. unfold reduce_data_indexed_nd. destruct HP as [->|(a & -> & Hc)]; cbn [rbind]; [reflexivity|].
    destruct (validate_index _ _ _ _) as [[]|e] eqn:Ev; cbn [rbind].
    2: { rewrite validate_index_err in Ev by congruence. congruence. }
    destruct scale as [s|]; [destruct (Nat.eqb _ _)|]; cbn [rbind]; [now apply (D _ _ 0%Qc [])|reflexivity|now apply (D _ _ 0%Qc [])].
  - unfold jackknife_data_nd, jackknife_data_at.
    destruct (reduce_data_nd K P mom_axes (Some [axis]) false true t) as [r|e] eqn:Er; cbn [rmap rbind]; [apply J|].
    assert (X : reduce_data_nd K P mom_axes (Some [axis]) false true t = Raise EValue); [|congruence].
    destruct (normalize_axis_index axis (tndim t) (Some (length mom_axes))) as [a|e'] eqn:Ea.
    2: { apply reduce_bad_axis_raises. right. intros R HR. inversion HR as [|? b ? ? Hb]; subst. exfalso.
         apply (normalize_index_ok axis (tndim t) (Some (length mom_axes))) in Hb. congruence. }
    apply names_of_index in Ea.
    destruct (normalize_axis_tuple (Some (map AInt mom_axes)) (tndim t) None false) as [M|e'] eqn:EM.
    + apply tuple_ints in EM. destruct EM as [EM NM]. pose proof (Forall2_len _ _ _ EM) as LM.
      apply (reduce_moment_axis_raises K P t mom_axes (Some [axis]) false true M [a] EM NM).
      * cbn. constructor; [|constructor]. now rewrite <- LM.
      * repeat constructor. intros [].
      * exists a. split; [|now left]. destruct (in_dec Nat.eq_dec a M) as [|C]; [assumption|]. exfalso. apply H. exists a, M.
        split; [exact EM|]. split; [exact Ea|now constructor].
    + apply reduce_bad_axis_raises. left. intros M F N. rewrite (normalize_ints _ _ _ F N) in EM. discriminate.
  - intros r mr. unfold jackknife_data_nd, jackknife_data_at. destruct mr as [l|]; cbn [rbind]; apply J.
  - intros window mp center zero. unfold rolling_data_nd. destruct HP as [->|(a & -> & Hc)]; cbn [rbind]; [reflexivity|].
    destruct (_ && _)%bool; [reflexivity|].
    match goal with |- context [normalize_axis_tuple ?a ?b ?c ?d] => destruct (normalize_axis_tuple a b c d) as [mn|e] eqn:En end; cbn [rbind].
    2: { now rewrite (normalize_tuple_err _ _ _ _ _ En). }
    unfold rmap at 1. 
    match goal with |- rbind ?x _ = _ => assert (X : x = Raise EValue); [|now rewrite X] end.
    apply (D _ _ (@None Qc) []); [exact Hc|]. destruct center; [|reflexivity]. unfold pad_along, tndim. cbn [tabulate tshape]. apply upd_length.
  - intros alpha alpha_axis adjust mp zero. unfold rolling_exp_data_nd, rolling_exp_data_at. destruct HP as [->|(a & -> & Hc)]; cbn [rbind]; [reflexivity|].
    destruct (prepare_alpha alpha_axis (dim_at t (Z.of_nat a)) false alpha) as [[aa al]|e] eqn:Ep; cbn [rbind].
    2: { now rewrite (prepare_alpha_err _ _ _ _ Ep). }
    destruct (prepare_alpha_dim _ _ _ _ _ Ep) as [na ->]. cbn [rbind]. destruct (negb _); [reflexivity|].
    match goal with |- rbind ?x _ = _ => assert (X : rmap (fun g => g) x = Raise EValue); [|destruct x; cbn in X |- *; congruence] end.
    now apply (D _ _ (@None Qc) [_]).
Qed.
