(* Lemmas about arrays of rolling windows, step by step and by name. *)
From Coq Require Import String Permutation.
From Verif Require Import Base BaseLemmas ModelPush ModelKernels ModelIndex ModelAxes ModelParams ModelWrap ModelNd ModelLabel ModelWindow Spec SpecAxes SpecNd SpecLabel SpecWindow
  ProofAxes ProofArrays ProofNd PropAxes PropParams PropWrap PropLabelled PropNd ProofLabel.
Local Open Scope string_scope.
Local Open Scope nat_scope.

Lemma combine_maps {X Y Z} (f : X -> Y) (g : X -> Z) l : combine (map f l) (map g l) = map (fun x => (f x, g x)) l.
Proof. induction l as [|a l IH]; [reflexivity|]. cbn. now rewrite IH. Qed.
Lemma forallb_of_map {X Y} (f : Y -> bool) (g : X -> Y) l : forallb f (map g l) = forallb (fun x => f (g x)) l.
Proof. induction l as [|a l IH]; [reflexivity|]. cbn. now rewrite IH. Qed.
Lemma l_tab {T} (d : T) sz dims f : l_named sz dims (LG dims (gtabulate (map sz dims) f)) /\
  forall env, inside_names sz dims env -> l_at d (LG dims (gtabulate (map sz dims) f)) env = f (map env dims).
Proof.
  split; [split; [reflexivity|split; [apply gtabulate_ok|reflexivity]]|]. intros env I. unfold l_at. cbn [lg_val lg_dims]. apply gget_gtabulate. now apply inside_names_valid.
Qed.
Lemma dict_set_new r l : ~ In (r_dim r) (map r_dim l) -> dict_set r l = (l ++ [r])%list.
Proof.
  induction l as [|q l IH]; intros N; [reflexivity|]. cbn [dict_set]. destruct (String.eqb_spec (r_dim q) (r_dim r)) as [E|E]; [elim N; rewrite <- E; now left|]. cbn [app]. f_equal. apply IH. intros H. apply N. now right.
Qed.
Lemma dict_zip_id l : NoDup (map r_dim l) -> dict_zip l = l.
Proof.
  unfold dict_zip. intros N. assert (G : forall l d, NoDup (map r_dim (d ++ l)) -> fold_left (fun d r => dict_set r d) l d = (d ++ l)%list); [|exact (G l [] N)].
  clear. induction l as [|r l IH]; intros d N; cbn [fold_left]; [now rewrite app_nil_r|]. rewrite dict_set_new.
  - rewrite IH; rewrite <- app_assoc; [reflexivity|exact N].
  - rewrite map_app in N. cbn [map] in N. apply NoDup_remove_2 in N. rewrite in_app_iff in N. tauto.
Qed.
Lemma find_name (key : roll -> sname) rs r : NoDup (map key rs) -> In r rs -> find (fun q => String.eqb (key q) (key r)) rs = Some r.
Proof.
  induction rs as [|q rs IH]; intros N H; [destruct H|]. cbn [find map] in *. inversion N as [|? ? Nq Nr]; subst. destruct H as [->|H]; [now rewrite String.eqb_refl|].
  destruct (String.eqb_spec (key q) (key r)) as [E|E]; [|auto]. elim Nq. rewrite E. now apply in_map.
Qed.
Lemma find_name_none (key : roll -> sname) rs n : ~ In n (map key rs) -> find (fun q => String.eqb (key q) n) rs = None.
Proof.
  induction rs as [|q rs IH]; intros N; [reflexivity|]. cbn [find map In] in *. destruct (String.eqb_spec (key q) n) as [E|E]; [tauto|]. apply IH. tauto.
Qed.
Lemma find_name_some (key : roll -> sname) rs n r : find (fun q => String.eqb (key q) n) rs = Some r -> In r rs /\ key r = n.
Proof. intros H. apply find_some in H. destruct H as [H E]. split; [exact H|]. now apply String.eqb_eq. Qed.

Section Windows.
  Context {T : Type} (fill : T) (rs : list roll) (dims : list sname).
  Hypothesis Nd : NoDup (map r_dim rs).
  Hypothesis Id : incl (map r_dim rs) dims.
  Hypothesis Nn : NoDup (map r_name rs).
  Hypothesis Fr : forall n, In n (map r_name rs) -> ~ In n dims.
  Hypothesis Nx : NoDup dims.
  Hypothesis Wp : Forall (fun r => (0 < r_win r)%Z) rs.
  Hypothesis Sp : Forall (fun r => (r_stride r <> 0)%Z) rs.

  Definition extra (n : sname) : nat := match roll_of rs n with Some r => win r - 1 | None => 0 end.
  Definition front (n : sname) : nat := match roll_of rs n with Some r => roll_start r | None => 0 end.
  Lemma win_pos r : In r rs -> 0 < win r.
  Proof. intros H. apply (proj1 (Forall_forall _ _) Wp) in H. unfold win. lia. Qed.
  Lemma front_le n : front n <= extra n.
  Proof.
    unfold front, extra. destruct (roll_of rs n) as [r|] eqn:E; [|lia]. apply find_name_some in E. pose proof (win_pos r (proj1 E)) as H. unfold roll_start. destruct (r_center r); [|lia].
    destruct (Nat.eq_dec (win r) 1) as [->|]; [cbn; lia|]. pose proof (Nat.div_lt (win r) 2 ltac:(lia) ltac:(lia)). lia.
  Qed.

  Lemma pad_named sz (g : lgrid T) : l_named sz dims g ->
    l_named (fun n => sz n + extra n) dims (roll_pad fill rs g) /\
    forall env, inside_names (fun n => sz n + extra n) dims env ->
      l_at fill (roll_pad fill rs g) env =
      if forallb (fun n => (Nat.leb (front n) (env n) && Nat.ltb (env n) (front n + sz n))%bool) dims
      then l_at fill g (fun n => env n - front n) else fill.
  Proof.
    intros (Ed & Hg & Sg). unfold roll_pad. rewrite Ed, Sg, combine_map_r, map_map. cbn [fst snd]. change (fun x => sz x + _) with (fun x => sz x + extra x).
    destruct (l_tab fill (fun n => sz n + extra n) dims (fun idx =>
           if forallb (fun p => (Nat.leb (front (fst (fst p))) (snd p) && Nat.ltb (snd p) (front (fst (fst p)) + snd (fst p)))%bool) (combine (map (fun x => (x, sz x)) dims) idx)
           then gget fill (lg_val g) (map (fun p => snd p - front (fst p)) (combine dims idx))
           else fill)) as [H1 H2]. split; [exact H1|]. intros env I. etransitivity; [apply H2; exact I|]. rewrite combine_maps.
    rewrite forallb_of_map. cbn [fst snd].
    destruct (forallb _ dims); [|reflexivity]. unfold l_at. rewrite Ed, combine_map_r, map_map. reflexivity.
  Qed.

  Definition shift (env : sname -> nat) (n : sname) : nat := match roll_of rs n with Some r => env (r_name r) | None => 0 end.
  Definition view_size (sz : sname -> nat) (n : sname) : nat :=
    match find (fun r => String.eqb (r_name r) n) rs with Some r => win r | None => sz n end.
  Lemma view_size_dim sz n : In n dims -> view_size sz n = sz n.
  Proof. intros H. unfold view_size. rewrite find_name_none; [reflexivity|]. intros Q. exact (Fr n Q H). Qed.
  Lemma view_size_name sz r : In r rs -> view_size sz (r_name r) = win r.
  Proof. intros H. unfold view_size. now rewrite (find_name r_name rs r Nn H). Qed.
  Lemma shift_find env n : match find (fun q => String.eqb (r_dim (fst q)) n) (combine rs (map env (map r_name rs))) with Some q => snd q | None => 0 end = shift env n.
  Proof.
    unfold shift, roll_of. clear. induction rs as [|r l IH]; [reflexivity|]. cbn [map combine find fst]. destruct (String.eqb (r_dim r) n); [reflexivity|exact IH].
  Qed.
  Lemma view_named sz (g : lgrid T) : l_named (fun n => sz n + extra n) dims g -> (forall n, In n (map r_dim rs) -> 0 < sz n) ->
    exists v, roll_view fill rs g = Ok v /\ l_named (view_size sz) (dims ++ map r_name rs) v /\
      forall env, inside_names (view_size sz) (dims ++ map r_name rs) env -> l_at fill v env = l_at fill g (fun n => env n + shift env n).
  Proof.
    intros (Ed & Hg & Sg) P0. unfold roll_view. rewrite Ed, Sg, combine_map_r.
    replace (existsb _ _) with false.
    2:{ symmetry. apply not_true_iff_false. intros H. apply existsb_exists in H. destruct H as (q & Hq & H). apply in_map_iff in Hq. destruct Hq as (n & <- & Hn). cbn [fst snd] in H.
        unfold extra in H. destruct (roll_of rs n) as [r|] eqn:E; [|discriminate]. apply find_name_some in E. destruct E as [Hr <-]. apply Nat.ltb_lt in H.
        specialize (P0 (r_dim r) (in_map r_dim _ _ Hr)). pose proof (win_pos r Hr). lia. }
    rewrite map_map. cbn [fst snd].
    assert (ES : (map (fun n => sz n + extra n - match roll_of rs n with Some r => win r - 1 | None => 0 end) dims ++ map win rs = map (view_size sz) (dims ++ map r_name rs))%list).
    { rewrite map_app, map_map. f_equal.
      - apply map_ext_in. intros n Hn. rewrite view_size_dim by exact Hn. unfold extra. lia.
      - apply map_ext_in. intros r Hr. now rewrite view_size_name. }
    rewrite ES. eexists. split; [reflexivity|].
    match goal with |- l_named _ _ (LG _ (gtabulate _ ?f)) /\ _ => destruct (l_tab fill (view_size sz) (dims ++ map r_name rs) f) as [H1 H2] end.
    split; [exact H1|]. intros env I. etransitivity; [apply H2; exact I|]. cbv zeta. rewrite map_app, firstn_app, skipn_app, map_length, Nat.sub_diag.
    rewrite (firstn_all2 (map env dims)) by (rewrite map_length; lia). rewrite (skipn_all2 (map env dims)) by (rewrite map_length; lia). cbn [firstn skipn app]. rewrite app_nil_r.
    unfold l_at. rewrite Ed, combine_map_r, map_map. cbn [fst snd]. f_equal. apply map_ext. intros n. now rewrite shift_find.
  Qed.

  Lemma strided_named sz D (g : lgrid T) : l_named sz D g ->
    exists v, roll_strided fill rs g = Ok v /\
      l_named (fun n => match roll_of rs n with Some r => step_length (sz n) (r_stride r) | None => sz n end) D v /\
      forall env, inside_names (fun n => match roll_of rs n with Some r => step_length (sz n) (r_stride r) | None => sz n end) D env ->
        l_at fill v env = l_at fill g (fun n => match roll_of rs n with Some r => step_entry (sz n) (r_stride r) (env n) | None => env n end).
  Proof.
    intros (Ed & Hg & Sg). unfold roll_strided. rewrite Ed, Sg, combine_map_r.
    replace (existsb _ rs) with false.
    2:{ symmetry. apply not_true_iff_false. intros H. apply existsb_exists in H. destruct H as (q & Hq & H). apply (proj1 (Forall_forall _ _) Sp) in Hq. apply Z.eqb_eq in H. tauto. }
    rewrite map_map. cbn [fst snd]. eexists. split; [reflexivity|].
    match goal with |- l_named ?sz' _ (LG _ (gtabulate _ ?f)) /\ _ => destruct (l_tab fill sz' D f) as [H1 H2] end.
    split; [exact H1|]. intros env I. etransitivity; [apply H2; exact I|]. unfold l_at. rewrite combine_maps, map_map, Ed. reflexivity.
  Qed.
  Lemma strict_named sz D ds supplied (g : lgrid T) : l_named sz D g -> NoDup D -> infix_dims supplied D = Ok ds ->
    exists v, l_transpose_strict fill supplied g = Ok v /\ l_named sz ds v /\ forall env, inside_names sz D env -> l_at fill v env = l_at fill g env.
  Proof.
    intros (E & Hg & Sg) N I. unfold l_transpose_strict. rewrite E, I. cbn [rbind]. destruct (infix_ok _ _ _ N I) as [Pm _].
    destruct (axis_nums_incl D ds) as (order & Eo); [intros n; now apply Permutation_in|]. rewrite Eo. cbn [rbind].
    destruct (gtranspose_named fill sz D ds order (lg_val g) N Pm Eo Hg Sg) as (G1 & G2 & G3).
    eexists. split; [reflexivity|]. split; [split; [reflexivity|]; now split|]. intros env He. unfold l_at. cbn [lg_val lg_dims]. rewrite E. now apply G3.
  Qed.
  Lemma infix_back l all : NoDup l -> incl l all -> infix_dims (map Some l ++ [None]) all = Ok (l ++ except_name all l)%list.
  Proof.
    intros N I. unfold infix_dims.
    assert (G : given (map Some l ++ [None]) = l) by (unfold given; rewrite flat_map_app; cbn; rewrite app_nil_r; apply given_some).
    rewrite G. rewrite filter_app, no_dots. cbn [filter app List.length]. rewrite (proj2 (sdup_false l) N), (proj2 (forallb_incl l all) I). cbn [orb negb]. f_equal.
    rewrite flat_map_app. cbn [flat_map]. rewrite app_nil_r, filter_names. f_equal. apply flat_some.
  Qed.

  Lemma step_ok n s i : (s <> 0)%Z -> 0 < n -> step_length n s = S ((n - 1) / Z.abs_nat s) /\
    (i < S ((n - 1) / Z.abs_nat s) -> step_entry n s i < n /\ Z.of_nat (step_entry n s i) = ((if 0 <? s then 0 else Z.of_nat n - 1) + s * Z.of_nat i)%Z).
  Proof.
    intros Hs Hn. assert (A : Z.abs_nat s <> 0) by lia. split.
    - unfold step_length. replace (n + (Z.abs_nat s - 1)) with (n - 1 + 1 * Z.abs_nat s) by lia. rewrite Nat.div_add by exact A. lia.
    - intros Hi. assert (B : i * Z.abs_nat s <= n - 1).
      { pose proof (Nat.mul_div_le (n - 1) (Z.abs_nat s) A). nia. }
      unfold step_entry. destruct (0 <? s)%Z eqn:E; [apply Z.ltb_lt in E|apply Z.ltb_ge in E]; split; nia.
  Qed.

  Lemma windows_shown sz (g : lgrid T) : l_named sz dims g -> (forall n, In n (map r_dim rs) -> 0 < sz n) ->
    exists out, rbind (roll_view fill rs (roll_pad fill rs g)) (fun g => rbind (roll_strided fill rs g) (fun g =>
      l_transpose_strict fill (map Some (map r_name rs) ++ [None]) g)) = Ok out /\ shows_windows fill rs sz g out.
  Proof.
    intros Hg P0. destruct (pad_named sz g Hg) as [Pn Pa]. destruct (view_named sz _ Pn P0) as (v & Ev & Vn & Va). rewrite Ev. cbn [rbind].
    destruct (strided_named (view_size sz) _ v Vn) as (w & Ew & Wn & Wa). rewrite Ew. cbn [rbind].
    assert (ND : NoDup (dims ++ map r_name rs)) by (apply NoDup_app_iff; repeat split; auto; intros n H1 H2; exact (Fr n H2 H1)).
    destruct (strict_named _ _ _ (map Some (map r_name rs) ++ [None]) w Wn ND (infix_back _ _ Nn ltac:(apply incl_appr, incl_refl))) as (out & Eo & On & Oa).
    exists out. split; [exact Eo|].
    assert (EX : except_name (dims ++ map r_name rs) (map r_name rs) = dims).
    { unfold except. rewrite filter_app. rewrite filter_all, filter_none, app_nil_r; [reflexivity| |].
      - intros n Hn. now destruct (in_dec string_dec n (map r_name rs)).
      - intros n Hn. destruct (in_dec string_dec n (map r_name rs)) as [Q|Q]; [|reflexivity]. elim (Fr n Q Hn). }
    rewrite EX in On. destruct On as (O1 & O2 & O3).
    assert (NR : forall r, In r rs -> roll_of rs (r_name r) = None).
    { intros r Hr. apply find_name_none. intros Q. apply (Fr (r_name r)); [now apply in_map|now apply Id]. }
    assert (RD : forall r, In r rs -> roll_of rs (r_dim r) = Some r) by (intros r Hr; now apply find_name).
    assert (SZ : forall n, In n (lg_dims out) -> match roll_of rs n with Some r => step_length (view_size sz n) (r_stride r) | None => view_size sz n end = window_size rs sz n).
    { intros n Hn. rewrite O1 in Hn. unfold window_size. apply in_app_iff in Hn. destruct Hn as [Hn|Hn].
      - apply in_map_iff in Hn. destruct Hn as (r & <- & Hr). rewrite NR by exact Hr. rewrite (find_name r_name rs r Nn Hr). now apply view_size_name.
      - rewrite view_size_dim by exact Hn. rewrite (find_name_none r_name rs n) by (intros Q; exact (Fr n Q Hn)). unfold roll_of. destruct (find _ rs) as [r|] eqn:E; [|reflexivity].
        apply find_name_some in E. destruct E as [Hr <-]. apply (step_ok _ _ 0); [exact (proj1 (Forall_forall _ _) Sp r Hr)|apply P0; now apply in_map]. }
    assert (L1 : lg_dims g = dims) by apply Hg.
    split; [now rewrite O1, L1|]. split; [exact O2|]. split; [rewrite O3, <- O1; apply map_ext_in; exact SZ|].
    intros env I.
    assert (I1 : inside_names (fun n => match roll_of rs n with Some r => step_length (view_size sz n) (r_stride r) | None => view_size sz n end) (dims ++ map r_name rs) env).
    { intros n Hn. assert (Hn' : In n (lg_dims out)) by (rewrite O1; apply in_app_iff; apply in_app_iff in Hn; tauto). rewrite SZ by exact Hn'. now apply I. }
    rewrite Oa by exact I1. rewrite Wa by exact I1.
    set (env1 := fun n => match roll_of rs n with Some r => step_entry (view_size sz n) (r_stride r) (env n) | None => env n end).
    assert (Q1 : forall r, In r rs -> env1 (r_dim r) < sz (r_dim r) /\ Z.of_nat (env1 (r_dim r)) = position_of (sz (r_dim r)) r (env (r_dim r)) /\ env1 (r_name r) = env (r_name r) /\ env (r_name r) < win r).
    { intros r Hr. unfold env1. rewrite RD, NR by exact Hr. rewrite view_size_dim by (apply Id; now apply in_map).
      pose proof (step_ok (sz (r_dim r)) (r_stride r) (env (r_dim r)) (proj1 (Forall_forall _ _) Sp r Hr) (P0 _ (in_map r_dim _ _ Hr))) as [_ S2].
      assert (In (r_dim r) (lg_dims out)) as H1 by (rewrite O1; apply in_app_iff; right; apply Id; now apply in_map). pose proof (I _ H1) as S3. unfold window_size in S3.
      rewrite (find_name_none r_name rs (r_dim r)) in S3 by (intros Q; apply (Fr _ Q); apply Id; now apply in_map). rewrite (find_name r_dim rs r Nd Hr) in S3. destruct (S2 S3) as [S4 S5].
      assert (In (r_name r) (lg_dims out)) as H2 by (rewrite O1; apply in_app_iff; left; now apply in_map). pose proof (I _ H2) as S6. unfold window_size in S6. rewrite (find_name r_name rs r Nn Hr) in S6. auto. }
    assert (Q2 : forall n, In n dims -> roll_of rs n = None -> env1 n = env n /\ env n < sz n).
    { intros n Hn E. unfold env1. rewrite E. split; [reflexivity|]. assert (In n (lg_dims out)) as H1 by (rewrite O1; apply in_app_iff; now right). pose proof (I _ H1) as S3. unfold window_size in S3.
      rewrite (find_name_none r_name rs n) in S3 by (intros Q; exact (Fr _ Q Hn)). unfold roll_of in E. now rewrite E in S3. }
    assert (I2 : inside_names (view_size sz) (dims ++ map r_name rs) env1).
    { intros n Hn. apply in_app_iff in Hn. destruct Hn as [Hn|Hn].
      - rewrite view_size_dim by exact Hn. destruct (roll_of rs n) as [r|] eqn:E; [|destruct (Q2 n Hn E) as [-> ?]; assumption].
        apply find_name_some in E. destruct E as [Hr <-]. now apply Q1.
      - apply in_map_iff in Hn. destruct Hn as (r & <- & Hr). rewrite view_size_name by exact Hr. destruct (Q1 r Hr) as (_ & _ & -> & H). exact H. }
    rewrite Va by exact I2. set (env2 := fun n => env1 n + shift env1 n).
    assert (Q3 : forall r, In r rs -> env2 (r_dim r) < sz (r_dim r) + extra (r_dim r) /\ (Z.of_nat (env2 (r_dim r)) - Z.of_nat (front (r_dim r)) = source (sz (r_dim r)) r env)%Z).
    { intros r Hr. destruct (Q1 r Hr) as (A1 & A2 & A3 & A4). unfold env2, shift, extra, front. rewrite RD by exact Hr. rewrite A3. split; [lia|]. unfold source. rewrite <- A2. unfold before, roll_start, win.
      pose proof (proj1 (Forall_forall _ _) Wp r Hr) as HW. cbn beta in HW.
      destruct (r_center r); [|lia]. rewrite Nat2Z.inj_add, Nat2Z.inj_div, Z2Nat.id by lia. change (Z.of_nat 2) with 2%Z. lia. }
    assert (Q4 : forall n, In n dims -> roll_of rs n = None -> env2 n = env n /\ front n = 0 /\ extra n = 0).
    { intros n Hn E. unfold env2, shift, front, extra. rewrite E. destruct (Q2 n Hn E) as [-> _]. repeat split. lia. }
    rewrite Pa.
    2:{ intros n Hn. destruct (roll_of rs n) as [r|] eqn:E.
        - apply find_name_some in E. destruct E as [Hr <-]. now apply Q3.
        - destruct (Q4 n Hn E) as (-> & _ & ->). destruct (Q2 n Hn E). lia. }
    split.
    - intros HS. replace (forallb _ dims) with true.
      + unfold l_at. rewrite L1. f_equal. apply map_ext_in. intros n Hn. destruct (roll_of rs n) as [r|] eqn:E.
        * apply find_name_some in E. destruct E as [Hr <-]. destruct (Q3 r Hr) as [_ B]. specialize (HS r Hr).
          destruct (In_nth rs r r Hr) as (k & Hk & Ek).
          assert (Hd : nth k (map r_dim rs) "" = r_dim r) by (rewrite (nth_indep _ "" (r_dim r)) by (now rewrite map_length); now rewrite map_nth, Ek).
          assert (B2 : forall l, List.length l = List.length rs -> name_bind (map r_dim rs) l env (r_dim r) = nth k l 0) by (intros l Ll; rewrite <- Hd; apply name_bind_in; [exact Nd|now rewrite map_length|now rewrite map_length]).
          rewrite B2 by now rewrite map_length. rewrite (nth_indep _ 0 (Z.to_nat (source (sz (r_dim r)) r env))) by (now rewrite map_length).
          rewrite (map_nth (fun r => Z.to_nat (source (sz (r_dim r)) r env))), Ek. lia.
        * destruct (Q4 n Hn E) as (-> & -> & _). rewrite name_bind_out; [lia|]. intros Q. apply in_map_iff in Q. destruct Q as (r & <- & Hr). rewrite RD in E by exact Hr. discriminate.
      + symmetry. apply forallb_forall. intros n Hn. apply andb_true_iff. rewrite Nat.leb_le, Nat.ltb_lt. destruct (roll_of rs n) as [r|] eqn:E.
        * apply find_name_some in E. destruct E as [Hr <-]. destruct (Q3 r Hr) as [_ B]. specialize (HS r Hr). lia.
        * destruct (Q4 n Hn E) as (-> & -> & _). destruct (Q2 n Hn E). lia.
    - intros (r & Hr & HS). replace (forallb _ dims) with false; [reflexivity|]. symmetry. apply not_true_iff_false. intros H. apply HS. rewrite forallb_forall in H.
      specialize (H (r_dim r) (Id _ (in_map r_dim _ _ Hr))). apply andb_true_iff in H. rewrite Nat.leb_le, Nat.ltb_lt in H. destruct (Q3 r Hr) as [_ B]. lia.
  Qed.
End Windows.
