(* Assignment to moments by name: assign_moment, vals_to_data. *)
From Coq Require Import Permutation String.
From Verif Require Import Base BaseLemmas ModelKernels ModelIndex ModelAxes ModelNd ModelWrap ModelMoments
  Spec SpecAxes SpecNd SpecMoments ProofAxes ProofArrays ProofMulti PropAxes ProofNd PropWrap SpecMethods ProofMethods ProofMoments PropMoments PropSelect.
Local Notation length := List.length (only parsing).
Local Open Scope string_scope.
Local Open Scope list_scope.

(* ---- writing a value over positions ---------------------------------------------------- *)

Lemma drop_ones_fit k s : Forall (eq 1) (firstn (length s - k) s) -> drop_ones k s = skipn (length s - k) s.
Proof.
  induction s as [|n s IH]; intros F; [now rewrite skipn_nil|]. cbn [length] in F. cbn [drop_ones length].
  destruct (Nat.ltb_spec k (S (length s))) as [Lt|Ge].
  - replace (S (length s) - k) with (S (length s - k)) in * by lia. cbn [firstn skipn] in *. inversion F as [|? ? E1 F']; subst n. now apply IH.
  - replace (S (length s) - k) with 0 by lia. cbn [skipn]. destruct n as [|[|n]]; reflexivity.
Qed.
Lemma drop_ones_misfit k s : ~ Forall (eq 1) (firstn (length s - k) s) -> k < length (drop_ones k s).
Proof.
  induction s as [|n s IH]; intros F; [exfalso; apply F; constructor|]. cbn [length] in F. cbn [drop_ones length].
  destruct (Nat.ltb_spec k (S (length s))) as [Lt|Ge].
  - replace (S (length s) - k) with (S (length s - k)) in F by lia. cbn [firstn] in F. destruct n as [|[|n]]; try (cbn [length]; lia).
    apply IH. intros F'. apply F. now constructor.
  - exfalso. apply F. replace (S (length s) - k) with 0 by (cbn [length]; lia). constructor.
Qed.
Lemma from_end_skipn s e k : k < length s - e -> from_end (skipn e s) k = from_end s k.
Proof.
  intros Hk. unfold from_end. rewrite <- (firstn_skipn e s) at 2. rewrite rev_app_distr, app_nth1; [reflexivity|]. rewrite rev_length, skipn_length. lia.
Qed.
Lemma bcast_onto vs s : bcast vs s = Ok s <-> length vs <= length s /\ forall k, k < length s -> from_end vs k = from_end s k \/ from_end vs k = 1.
Proof.
  pose proof (bcast_spec vs s) as B. split.
  - intros E. rewrite E in B. destruct B as [Lc B]. split; [lia|]. intros k Hk. destruct (B k) as [_ B2].
    destruct (Nat.eqb_spec (from_end vs k) 1) as [E1|E1]; [now right|left; congruence].
  - intros (Le & F). destruct (bcast vs s) as [c|e].
    + f_equal. destruct B as [Lc B]. apply from_end_ext; [lia|]. intros k Hk. destruct (B k) as [_ ->].
      destruct (Nat.eqb_spec (from_end vs k) 1) as [E1|E1]; [reflexivity|]. destruct (F k ltac:(lia)); congruence.
    + exfalso. destruct B as (_ & k & B1 & B2 & B3). destruct (Nat.lt_ge_cases k (length s)) as [Hk|Hk].
      * destruct (F k Hk); congruence.
      * apply B3. now apply from_end_out.
Qed.
Lemma fits_over_bcast s v : fits_over s v <-> bcast (drop_ones (length s) (tshape v)) s = Ok s.
Proof.
  unfold fits_over. unfold tndim. split.
  - intros (F & G). rewrite (drop_ones_fit _ _ F). apply bcast_onto. rewrite skipn_length. split; [lia|]. intros k Hk.
    destruct (Nat.lt_ge_cases k (length (tshape v) - (length (tshape v) - length s))) as [Lt|Ge].
    + rewrite from_end_skipn by exact Lt. now apply G.
    + right. apply from_end_out. rewrite skipn_length. exact Ge.
  - intros E. apply bcast_onto in E. destruct E as (Le & G).
    destruct (Forall_dec (eq 1) (Nat.eq_dec 1) (firstn (length (tshape v) - length s) (tshape v))) as [F|F].
    + split; [exact F|]. intros k Hk. rewrite (drop_ones_fit _ _ F) in G. specialize (G k Hk).
      destruct (Nat.lt_ge_cases k (length (tshape v) - (length (tshape v) - length s))) as [Lt|Ge].
      * rewrite from_end_skipn in G by exact Lt. exact G.
      * right. apply from_end_out. lia.
    + apply drop_ones_misfit in F. lia.
Qed.

Lemma fold_upd {X} (key : X -> nat) (val : X -> Qc) l : (forall x y, In x l -> In y l -> key x = key y -> val x = val y) ->
  forall d, (forall x, In x l -> key x < length d) ->
  let r := fold_left (fun d x => upd d (key x) (val x)) l d in
  length r = length d /\ (forall x, In x l -> nth (key x) r 0%Qc = val x) /\ (forall k, (forall x, In x l -> key x <> k) -> nth k r 0%Qc = nth k d 0%Qc).
Proof.
  cbn zeta. induction l as [|x l IH]; intros C d B; cbn [fold_left].
  - split; [reflexivity|]. split; [intros x []|reflexivity].
  - assert (C' : forall a b, In a l -> In b l -> key a = key b -> val a = val b) by (intros; apply C; auto; now right).
    destruct (IH C' (upd d (key x) (val x))) as (R1 & R2 & R3); [intros y Hy; rewrite upd_length; apply B; now right|].
    rewrite upd_length in R1. split; [exact R1|]. split.
    + intros y [<-|Hy]; [|now apply R2].
      destruct (in_dec Nat.eq_dec (key x) (map key l)) as [I|I].
      * apply in_map_iff in I. destruct I as (y & Ey & Hy). pose proof (R2 y Hy) as R. rewrite Ey in R. rewrite R. apply C; auto; [now right|now left].
      * rewrite R3 by (intros y Hy E; apply I; rewrite <- E; now apply in_map). rewrite upd_nth, Nat.eqb_refl.
        destruct (Nat.ltb_spec (key x) (length d)) as [|Ge]; [reflexivity|]. specialize (B x (or_introl eq_refl)). lia.
    + intros k Hk. rewrite R3 by (intros y Hy; apply Hk; now right). rewrite upd_nth.
      destruct (Nat.eqb_spec (key x) k) as [E|]; [exfalso; exact (Hk x (or_introl eq_refl) E)|reflexivity].
Qed.

Lemma valid_split s1 s2 pos : valid (s1 ++ s2) pos -> exists p q, pos = p ++ q /\ valid s1 p /\ valid s2 q.
Proof. intros V. apply Forall2_app_inv_l in V. destruct V as (p & q & V1 & V2 & ->). eauto. Qed.
Lemma app_same_length {X} (a b c d : list X) : length a = length c -> a ++ b = c ++ d -> a = c /\ b = d.
Proof.
  revert c. induction a as [|x a IH]; intros [|y c] Lq E; try discriminate; [split; [reflexivity|exact E]|].
  injection E as -> E. injection Lq as Lq. destruct (IH c Lq E) as [-> ->]. auto.
Qed.
(* one assignment to an array with the moments last *)
Lemma pick_set_entries squeeze ls ms name qs at_ ps u v : tensor_ok u -> tshape u = ls ++ ms -> In (name, (qs, at_)) (moment_names squeeze ms) ->
  picks ps ms qs at_ -> all_positive ms -> all_exist ms qs at_ ->
  (fits_over (ls ++ qs) v -> exists w, pick_set ps v u = Ok w /\ tensor_ok w /\ tshape w = ls ++ ms /\
    (forall p q, valid ls p -> valid qs q -> tget w (p ++ at_ q) = value_over v (p ++ q)) /\
    (forall p m, valid ls p -> valid ms m -> (forall q, valid qs q -> at_ q <> m) -> tget w (p ++ m) = tget u (p ++ m))) /\
  (~ fits_over (ls ++ qs) v -> pick_set ps v u = Raise EValue).
Proof.
  intros Tu Su HN PS AP AE. destruct (picks_checked ps ls ms qs at_ u Su PS AE (fun _ => AP)) as (k & Ek & Src).
  unfold pick_set. rewrite Ek. cbn [rbind]. split.
  - intros F. assert (E := proj1 (fits_over_bcast _ _) F). rewrite E. cbn [rbind]. rewrite nats_eqb_refl. cbn [negb].
    set (vs := drop_ones _ _). set (val := fun pos => nth (ravel vs (loop_index vs pos)) (tdata v) 0%Qc).
    set (key := fun pos => ravel (tshape u) (pick_source ps k pos)).
    assert (VS : forall pos, valid (ls ++ qs) pos -> valid (tshape u) (pick_source ps k pos)).
    { intros pos V. destruct (valid_split _ _ _ V) as (p & q & -> & Vp & Vq). rewrite Src by (exact (valid_length _ _ Vp) || exact Vq).
      rewrite Su. apply Forall2_app; [exact Vp|now apply AE]. }
    assert (INJ : forall a b, valid (ls ++ qs) a -> valid (ls ++ qs) b -> pick_source ps k a = pick_source ps k b -> a = b).
    { intros a b Va Vb Eab. destruct (valid_split _ _ _ Va) as (p & q & -> & Vp & Vq), (valid_split _ _ _ Vb) as (p' & q' & -> & Vp' & Vq').
      rewrite !Src in Eab by (exact (valid_length _ _ Vp) || exact (valid_length _ _ Vp') || assumption).
      apply app_same_length in Eab; [|rewrite (valid_length _ _ Vp), (valid_length _ _ Vp'); reflexivity]. destruct Eab as [-> Eq]. f_equal.
      exact (names_injective squeeze ms name qs at_ q q' HN Vq Vq' Eq). }
    destruct (fold_upd key val (all_idx (ls ++ qs))) with (d := tdata u) as (R1 & R2 & R3).
    { intros x y Hx Hy Exy. apply all_idx_valid in Hx, Hy. apply ravel_inj in Exy; auto. f_equal. now apply INJ. }
    { intros x Hx. apply all_idx_valid in Hx. rewrite Tu. apply ravel_lt. now apply VS. }
    eexists. split; [reflexivity|]. split; [unfold tensor_ok; cbn [tshape tdata]; etransitivity; [exact R1|exact Tu]|]. split; [exact Su|]. split.
    + intros p q Vp Vq. assert (V : valid (ls ++ qs) (p ++ q)) by (now apply Forall2_app).
      specialize (R2 (p ++ q) (proj2 (all_idx_valid _ _) V)). unfold key in R2 at 1. rewrite Src in R2 by (exact (valid_length _ _ Vp) || exact Vq).
      unfold tget at 1. cbn [tshape tdata]. etransitivity; [exact R2|]. unfold val, value_over, value_on, tget. cbn [tshape tdata].
      assert (EV : vs = skipn (tndim v - length (p ++ q)) (tshape v)).
      { unfold vs. rewrite drop_ones_fit by apply F. rewrite (valid_length _ _ V). reflexivity. }
      rewrite EV. reflexivity.
    + intros p m Vp Vm Nm. unfold tget. cbn [tshape tdata]. apply R3. intros x Hx Ex. apply all_idx_valid in Hx. unfold key in Ex.
      apply ravel_inj in Ex; [|now apply VS|rewrite Su; now apply Forall2_app].
      destruct (valid_split _ _ _ Hx) as (p' & q & -> & Vp' & Vq). rewrite Src in Ex by (exact (valid_length _ _ Vp') || exact Vq).
      apply app_same_length in Ex; [|rewrite (valid_length _ _ Vp), (valid_length _ _ Vp'); reflexivity]. destruct Ex as [_ Ex]. exact (Nm q Vq Ex).
  - intros NF. destruct (bcast (drop_ones (length (ls ++ qs)) (tshape v)) (ls ++ qs)) as [c|e] eqn:E; cbn [rbind].
    + destruct (nats_eqb c (ls ++ qs)) eqn:Q; [|reflexivity]. apply nats_eqb_eq in Q. subst c. exfalso. apply NF. now apply fits_over_bcast.
    + pose proof (bcast_spec (drop_ones (length (ls ++ qs)) (tshape v)) (ls ++ qs)) as B. rewrite E in B. destruct B as [-> _]. reflexivity.
Qed.

Section Assign.
  Context (mom_axes : list Z) (M L : list nat) (t : tensor).
  Hypothesis H : moment_axes mom_axes M L t.
  Hypothesis HM : length M = 1 \/ length M = 2.
  Let sh := shape_of t.
  Let ms := map sh M.
  Let ls := map sh L.

  Lemma back_axes w : tensor_ok w -> tshape w = tshape t -> moment_axes mom_axes M L w.
  Proof.
    intros Tw Sw. destruct H as (_ & A & B & C). assert (N : tndim w = tndim t) by (unfold tndim; now rewrite Sw). rewrite <- N in A, C. now repeat split.
  Qed.

  (* C123: the named moments get the value, spread over the positions; nothing else changes *)
  Theorem assign_moment_entries name squeeze qs at_ v : In (name, (qs, at_)) (moment_names squeeze ms) -> all_positive ms -> all_exist ms qs at_ ->
    fits_over (ls ++ qs) v ->
    exists out, assign_moment_nd [(name, v)] mom_axes squeeze t = Ok out /\ moment_axes mom_axes M L out /\ tshape out = tshape t /\
      (forall p q, valid ls p -> valid qs q -> moment_entry out M L p (at_ q) = value_over v (p ++ q)) /\
      (forall p m, valid ls p -> valid ms m -> (forall q, valid qs q -> at_ q <> m) -> moment_entry out M L p m = moment_entry t M L p m).
  Proof.
    intros HN AP AE F. destruct (moved_entries mom_axes M L t H) as (u & Eu & Tu & Su & Gu). fold sh in Su. fold ls ms in Su.
    unfold assign_moment_nd. rewrite Eu. cbn [rbind foldR fst snd].
    destruct (name_table squeeze ms name qs at_ (ms_len M t HM) HN) as (ps & Eps & PS). rewrite (ms_axes mom_axes M L t H). fold sh. fold ms. rewrite Eps. cbn [rbind].
    destruct (proj1 (pick_set_entries squeeze ls ms name qs at_ ps u v Tu Su HN PS AP AE) F) as (w & Ew & Tw & Sw & W1 & W2). rewrite Ew. cbn [rbind].
    destruct (back_entries mom_axes M L t H w Tw Sw) as (x & Ex & Tx & Sx & Gx). rewrite (ms_axes mom_axes M L t H) in Ex. fold sh in Ex. fold ms in Ex.
    exists x. split; [exact Ex|]. split; [now apply back_axes|]. split; [exact Sx|]. split.
    - intros p q Vp Vq. rewrite Gx by (exact Vp || now apply AE). now apply W1.
    - intros p m Vp Vm Nm. rewrite Gx by assumption. rewrite W2 by assumption. now apply Gu.
  Qed.
  (* a value that does not fit, a moment that does not exist, an unknown name *)
  Theorem assign_moment_refused name squeeze v :
    (forall qs at_, In (name, (qs, at_)) (moment_names squeeze ms) -> all_positive ms -> all_exist ms qs at_ -> ~ fits_over (ls ++ qs) v ->
      assign_moment_nd [(name, v)] mom_axes squeeze t = Raise EValue) /\
    (forall qs at_, In (name, (qs, at_)) (moment_names squeeze ms) -> ~ all_exist ms qs at_ -> assign_moment_nd [(name, v)] mom_axes squeeze t = Raise EIndex) /\
    (~ In name (map fst (moment_names squeeze ms)) -> assign_moment_nd [(name, v)] mom_axes squeeze t = Raise EValue).
  Proof.
    destruct (moved_entries mom_axes M L t H) as (u & Eu & Tu & Su & Gu). fold sh in Su. fold ls ms in Su.
    unfold assign_moment_nd. rewrite Eu. cbn [rbind foldR fst snd]. rewrite (ms_axes mom_axes M L t H). fold sh. fold ms. split; [|split].
    - intros qs at_ HN AP AE F. destruct (name_table squeeze ms name qs at_ (ms_len M t HM) HN) as (ps & Eps & PS). rewrite Eps. cbn [rbind].
      rewrite (proj2 (pick_set_entries squeeze ls ms name qs at_ ps u v Tu Su HN PS AP AE) F). reflexivity.
    - intros qs at_ HN NE. destruct (name_table squeeze ms name qs at_ (ms_len M t HM) HN) as (ps & Eps & PS). rewrite Eps. cbn [rbind].
      unfold pick_set. rewrite (picks_missing ps ls ms qs at_ u Su PS NE). reflexivity.
    - intros NI. rewrite (name_unknown squeeze ms name (ms_len M t HM) NI). reflexivity.
  Qed.

  Lemma back_and_forth u v : tensor_ok u -> tshape u = ls ++ ms ->
    (if mom_moved mom_axes then np_moveaxis (axes_last (length mom_axes)) mom_axes u else Ok u) = Ok v ->
    (if mom_moved mom_axes then np_moveaxis mom_axes (axes_last (length mom_axes)) v else Ok v) = Ok u.
  Proof.
    intros Tu Su E. destruct (back_entries mom_axes M L t H u Tu Su) as (v' & E' & Tv & Sv & G). rewrite E in E'. apply ok_inj in E'. subst v'.
    destruct (moved_entries mom_axes M L v (back_axes v Tv Sv)) as (u' & Eu & Tu' & Su' & G'). rewrite Eu. f_equal.
    assert (SH : forall a, shape_of v a = sh a) by (intros a; unfold sh, shape_of; now rewrite Sv).
    rewrite !(map_ext _ _ SH) in Su', G'. apply tensor_ext; [exact Tu'|exact Tu|unfold ls, ms in Su; congruence|].
    intros idx V. rewrite Su' in V. destruct (valid_split _ _ _ V) as (p & m & -> & Vp & Vm). rewrite G', G by assumption. reflexivity.
  Qed.
  Lemma forth_and_back u : (if mom_moved mom_axes then np_moveaxis mom_axes (axes_last (length mom_axes)) t else Ok t) = Ok u ->
    (if mom_moved mom_axes then np_moveaxis (axes_last (length mom_axes)) mom_axes u else Ok u) = Ok t.
  Proof.
    intros E. destruct (moved_entries mom_axes M L t H) as (u' & Eu & Tu & Su & Gu). rewrite E in Eu. apply ok_inj in Eu. subst u'.
    destruct (back_entries mom_axes M L t H u Tu Su) as (v & Ev & Tv & Sv & G). rewrite Ev. f_equal.
    apply (moment_entries_ext mom_axes M L t v H Tv Sv). intros p m Vp Vm. rewrite G, Gu by assumption. reflexivity.
  Qed.
  Lemma pick_set_kept ps v u w : tensor_ok u -> pick_set ps v u = Ok w -> tensor_ok w /\ tshape w = tshape u.
  Proof.
    intros Tu. unfold pick_set. destruct (pick_checked ps u) as [[k s]|]; [|discriminate]. cbn [rbind].
    destruct (bcast _ _) as [c|]; [|discriminate]. cbn [rbind]. destruct (negb _); [discriminate|]. intros E. apply ok_inj in E. subst w.
    split; [|reflexivity]. unfold tensor_ok. cbn [tshape tdata]. etransitivity; [|exact Tu]. generalize (tdata u) as d. induction (all_idx s) as [|x l IH]; intros d; [reflexivity|].
    cbn [fold_left]. now rewrite IH, upd_length.
  Qed.
  Lemma assigned_kept squeeze k names u w : tensor_ok u ->
    foldR (fun u nv => rbind (name_indexer (fst nv) k squeeze) (fun ps => pick_set ps (snd nv) u)) names u = Ok w -> tensor_ok w /\ tshape w = tshape u.
  Proof.
    revert u. induction names as [|[n v] names IH]; intros u Tu; cbn [foldR fst snd].
    - intros E. apply ok_inj in E. subst w. auto.
    - destruct (name_indexer n k squeeze) as [ps|]; [|discriminate]. cbn [rbind]. destruct (pick_set ps v u) as [x|] eqn:E; [|discriminate]. cbn [rbind]. intros F.
      destruct (pick_set_kept ps v u x Tu E) as [Tx Sx]. destruct (IH x Tx F) as [Tw Sw]. split; [exact Tw|congruence].
  Qed.
  Lemma foldR_app {X Y} (f : X -> Y -> res X) l1 l2 x : foldR f (l1 ++ l2) x = rbind (foldR f l1 x) (foldR f l2).
  Proof. revert x. induction l1 as [|a l1 IH]; intros x; cbn [foldR app rbind]; [reflexivity|]. destruct (f x a); cbn [rbind]; auto. Qed.

  (* C123: several names are assigned one after the other *)
  Theorem assign_moment_sequence names1 names2 squeeze :
    assign_moment_nd (names1 ++ names2) mom_axes squeeze t = rbind (assign_moment_nd names1 mom_axes squeeze t) (assign_moment_nd names2 mom_axes squeeze).
  Proof.
    destruct (moved_entries mom_axes M L t H) as (u & Eu & Tu & Su & Gu). unfold assign_moment_nd. rewrite Eu. cbn [rbind]. rewrite foldR_app.
    destruct (foldR _ names1 u) as [w|e] eqn:E; [|reflexivity]. cbn [rbind]. destruct (assigned_kept _ _ _ _ _ Tu E) as [Tw Sw]. rewrite Su in Sw.
    destruct (back_entries mom_axes M L t H w Tw Sw) as (v & Ev & _). rewrite Ev. cbn [rbind]. rewrite (back_and_forth w v Tw Sw Ev). reflexivity.
  Qed.
  Theorem assign_moment_nothing squeeze : assign_moment_nd [] mom_axes squeeze t = Ok t.
  Proof.
    destruct (moved_entries mom_axes M L t H) as (u & Eu & Tu & Su & Gu). unfold assign_moment_nd. rewrite Eu. cbn [rbind foldR]. exact (forth_and_back u Eu).
  Qed.

  (* C123: what was assigned is selected; assigning what was selected changes nothing *)
  Theorem select_after_assign name squeeze qs at_ v : In (name, (qs, at_)) (moment_names squeeze ms) -> all_positive ms -> all_exist ms qs at_ ->
    fits_over (ls ++ qs) v ->
    exists out sel, assign_moment_nd [(name, v)] mom_axes squeeze t = Ok out /\ select_moment_nd name mom_axes squeeze out = Ok sel /\
      tensor_ok sel /\ tshape sel = ls ++ qs /\ forall l, valid (ls ++ qs) l -> tget sel l = value_over v l.
  Proof.
    intros HN AP AE F. destruct (assign_moment_entries name squeeze qs at_ v HN AP AE F) as (out & Eo & MO & So & G1 & _).
    assert (SH : forall a, shape_of out a = sh a) by (intros a; unfold sh, shape_of; now rewrite So).
    destruct (select_moment_entries mom_axes M L out MO HM name squeeze qs at_) as (sel & Es & Ts & Ss & Gs);
      [rewrite (map_ext _ _ SH); assumption|rewrite (map_ext _ _ SH); assumption|rewrite (map_ext _ _ SH); assumption|].
    rewrite (map_ext _ _ SH) in Ss, Gs. fold ls in Ss, Gs.
    exists out, sel. split; [exact Eo|]. split; [exact Es|]. split; [exact Ts|]. split; [exact Ss|].
    intros l V. destruct (valid_split _ _ _ V) as (p & q & -> & Vp & Vq). rewrite Gs by assumption. now apply G1.
  Qed.
  Lemma fits_itself s v : tshape v = s -> fits_over s v.
  Proof.
    intros E. unfold fits_over, tndim. rewrite E, Nat.sub_diag. split; [constructor|]. intros; now left.
  Qed.
  Lemma value_over_itself v l : valid (tshape v) l -> value_over v l = tget v l.
  Proof.
    intros V. unfold value_over. rewrite (valid_length _ _ V). unfold tndim. rewrite Nat.sub_diag. cbn [skipn]. unfold value_on. cbn [tshape]. rewrite stretched_self by exact V. now destruct v.
  Qed.
  Theorem assign_what_was_selected name squeeze qs at_ : In (name, (qs, at_)) (moment_names squeeze ms) -> all_positive ms -> all_exist ms qs at_ ->
    exists sel, select_moment_nd name mom_axes squeeze t = Ok sel /\ assign_moment_nd [(name, sel)] mom_axes squeeze t = Ok t.
  Proof.
    intros HN AP AE. destruct (select_moment_entries mom_axes M L t H HM name squeeze qs at_ HN AP AE) as (sel & Es & Ts & Ss & Gs). exists sel. split; [exact Es|].
    destruct (assign_moment_entries name squeeze qs at_ sel HN AP AE (fits_itself _ _ Ss)) as (out & Eo & MO & So & G1 & G2). rewrite Eo. f_equal.
    apply (moment_entries_ext mom_axes M L t out H (proj1 MO) So). intros p m Vp Vm.
    destruct (in_dec (list_eq_dec Nat.eq_dec) m (map at_ (all_idx qs))) as [I|I].
    - apply in_map_iff in I. destruct I as (q & <- & Hq). apply all_idx_valid in Hq. rewrite G1 by assumption.
      rewrite value_over_itself by (rewrite Ss; now apply Forall2_app). now apply Gs.
    - apply G2; [assumption|assumption|]. intros q Vq E. apply I. rewrite <- E. apply in_map. now apply all_idx_valid.
  Qed.
End Assign.

(* an array with fewer axes than moments is indexed by no name but "all" *)
Theorem assign_moment_too_few_axes name squeeze ms v t : length ms = 1 \/ length ms = 2 -> tndim t < length ms ->
  In name (map fst (moment_names squeeze ms)) -> name <> "all"%string ->
  assign_moment_nd [(name, v)] (axes_last (length ms)) squeeze t = Raise EIndex.
Proof.
  intros Lm Lt HN Na. apply in_map_iff in HN. destruct HN as ([n [qs at_]] & E & HN). cbn [fst] in E. subst n.
  assert (X : exists ps, name_indexer name (length ms) squeeze = Ok ps /\ length ps = length ms).
  { destruct ms as [|n0 [|n1 [|? ?]]]; cbn in Lm; try lia; clear Lm Lt; cbn [moment_names] in HN; cbn [length];
      destruct squeeze; repeat (destruct HN as [HN|HN]; [injection HN as <- _ _; first [now contradiction Na|eexists; split; reflexivity]|]); destruct HN. }
  destruct X as (ps & Eps & Lps). unfold assign_moment_nd.
  assert (La : length (axes_last (length ms)) = length ms) by (destruct Lm as [-> | ->]; reflexivity).
  assert (Mv : mom_moved (axes_last (length ms)) = false) by (destruct Lm as [-> | ->]; reflexivity).
  rewrite Mv, La. cbn [rbind foldR fst snd]. rewrite Eps. cbn [rbind]. unfold pick_set, pick_checked. rewrite Lps.
  apply Nat.ltb_lt in Lt. rewrite Lt. reflexivity.
Qed.
