(* Statistics of labelled objects, by name. *)
From Coq Require Import String Permutation.
From Verif Require Import Base BaseLemmas ModelPush ModelKernels ModelIndex ModelAxes ModelState ModelParams ModelNd ModelWrap ModelLabel ModelMoments ModelMethods ModelMethodsX ModelConstruct ModelMomentsX
  Spec SpecAxes SpecNd PropLabelled SpecLabel SpecMethodsX SpecMethods SpecMoments SpecMomentsX
  ProofAxes ProofArrays ProofNd ProofMethods PropParams ProofLabel ProofLabelMany PropLabelJack ProofMethodsX ProofMoments PropConvert PropMoments PropSelect PropAssign PropConstruct PropConstructUse
  ProofMomentsX PropMomentsX PropSelectX PropAssignX.
Local Open Scope string_scope.
Local Open Scope nat_scope.

(* the moments with a new weight *)
Lemma set_weight s new f m : List.length s = 1 \/ List.length s = 2 -> valid s m -> set_names true s [("weight", new)] f m = if forallb (Nat.eqb 0) m then new [] else f m.
Proof.
  intros L V. assert (Lm := valid_length _ _ V). unfold set_names, set_moments. destruct s as [|n [|n1 [|? ?]]]; cbn [List.length] in L; try lia.
  - destruct m as [|i [|? ?]]; try discriminate Lm. cbn [moment_names find fst snd String.eqb Ascii.eqb Bool.eqb all_idx app concat map].
    destruct (list_eq_dec Nat.eq_dec [0] [i]) as [E|E]; destruct i; cbn; try reflexivity; try discriminate E. now elim E.
  - destruct m as [|i [|j [|? ?]]]; try discriminate Lm. cbn [moment_names find fst snd String.eqb Ascii.eqb Bool.eqb all_idx app concat map].
    destruct (list_eq_dec Nat.eq_dec [0; 0] [i; j]) as [E|E]; destruct i, j; cbn; try reflexivity; try discriminate E. now elim E.
Qed.
(* the moments with the weight 1 and the averages 0 *)
Lemma set_normal s new0 new1 f m : List.length s = 1 \/ List.length s = 2 -> valid s m -> (forall q, new0 q = 1%Qc) -> (forall q, new1 q = 0%Qc) ->
  set_names true s [("weight", new0); ("ave", new1)] f m = central_normal f m.
Proof.
  intros L V N0 N1. assert (Lm := valid_length _ _ V). unfold set_names, set_moments, central_normal. destruct s as [|n [|n1 [|? ?]]]; cbn [List.length] in L; try lia.
  - destruct m as [|i [|? ?]]; try discriminate Lm. cbn [moment_names find fst snd String.eqb Ascii.eqb Bool.eqb all_idx app concat map fold_right].
    destruct (list_eq_dec Nat.eq_dec [1] [i]) as [E|E]; [injection E as <-; cbn; apply N1|]. destruct (list_eq_dec Nat.eq_dec [0] [i]) as [E'|E']; [injection E' as <-; cbn; apply N0|].
    destruct i as [|[|i]]; [now elim E'|now elim E|reflexivity].
  - destruct m as [|i [|j [|? ?]]]; try discriminate Lm. cbn [moment_names find fst snd String.eqb Ascii.eqb Bool.eqb].
    change (all_idx [2]) with [[0]; [1]]. change (all_idx []) with [@nil nat]. cbn [find hd nth fold_right].
    destruct (list_eq_dec Nat.eq_dec [1; 0] [i; j]) as [E|E]; [injection E as <- <-; cbn; apply N1|]. destruct (list_eq_dec Nat.eq_dec [0; 1] [i; j]) as [E1|E1]; [injection E1 as <- <-; cbn; apply N1|].
    destruct (list_eq_dec Nat.eq_dec [0; 0] [i; j]) as [E'|E']; [injection E' as <- <-; cbn; apply N0|].
    destruct i as [|[|i]], j as [|[|j]]; try reflexivity; exfalso; auto.
Qed.

Section Stats.
  Context (c : cmdata) (md : list sname).
  Hypothesis H : xholds c md.
  Let x := cx_obj c.
  Let outer := except_name (x_dims x) md.
  Let sz := dim_size x.

  Lemma object_moments : has_moments md x.
  Proof. destruct H as (H1 & H2 & H3 & H4 & _). split; [exact H1|]. auto. Qed.
  Lemma object_params : cx_params c = params_for md.
  Proof. apply H. Qed.
  Lemma object_sizes : Forall (le 2) (map sz md).
  Proof. apply Forall_map. apply H. Qed.
  Lemma object_positive : Forall (lt 0) (map sz md).
  Proof. eapply Forall_impl; [|exact object_sizes]. cbn. lia. Qed.
  Lemma object_length : List.length (map sz md) = 1 \/ List.length (map sz md) = 2.
  Proof. rewrite map_length. apply H. Qed.
  Lemma object_inside env : inside_names sz (outer ++ md) env -> inside_names sz outer env /\ valid (map sz md) (map env md).
  Proof. intros He. split; [intros n Hn; apply He, in_or_app; now left|apply inside_names_valid; intros n Hn; apply He, in_or_app; now right]. Qed.

  (* a selection named in the table *)
  Theorem object_select_named name squeeze combined coords qs at_ : In (name, (qs, at_)) (moment_names squeeze (map sz md)) -> name <> "all" -> all_exist (map sz md) qs at_ ->
    (own_dim md squeeze name -> coords_fit md coords /\ combined_ok x md combined) ->
    let qd := selection_dims md squeeze combined name in
    result_is (outer ++ qd) (sizes_with qd qs sz) (fun env => named_moment x md env (at_ (map env qd))) (cx_select_moment c name squeeze combined coords).
  Proof. intros HN Na AE HC. unfold cx_select_moment. rewrite object_params. apply select_moment_named; auto using object_moments, object_positive. Qed.

  (* assign_moment gives an object with the same moment dimensions *)
  Theorem object_assign_named squeeze given combined nvs : Forall (assignable x md squeeze given combined) nvs ->
    exists c', cx_assign_moment c nvs squeeze given = Ok c' /\ xholds c' md /\ x_dims (cx_obj c') = (outer ++ md)%list /\ (forall n, In n (x_dims x) -> dim_size (cx_obj c') n = sz n) /\
      forall env, x_inside x env ->
        x_at (cx_obj c') env = set_names squeeze (map sz md) (map (fun nv => (fst nv, value_for md squeeze combined outer (fst nv) (snd nv) env)) nvs) (named_moment x md env) (map env md).
  Proof.
    intros F. pose proof object_moments as HM. destruct (assign_moment_named x md HM squeeze given combined nvs object_positive F) as (y & Ey & Hy & Dy & Sy & Ay). fold outer in Dy, Sy, Ay.
    assert (In' : forall n, In n (outer ++ md) <-> In n (x_dims x)) by (intros n; apply (xm_In x md (proj1 HM) (proj1 (proj2 HM)) (proj2 (proj2 (proj2 HM))))).
    exists (CX y (cx_params c)). unfold cx_assign_moment. rewrite object_params. fold x. rewrite Ey. split; [reflexivity|]. cbn [cx_obj]. pose proof H as (_ & N & L & I & G & _). split; [|split; [exact Dy|split]].
    - split; [exact Hy|]. split; [exact N|]. split; [exact L|]. cbn [cx_obj cx_params]. split; [intros n Hn; rewrite Dy; apply in_or_app; now right|]. split; [|reflexivity].
      rewrite Forall_forall in *. intros d Hd. rewrite (Sy d) by (apply in_or_app; now right). now apply G.
    - intros n Hn. apply Sy. now apply In'.
    - intros env He. apply Ay. intros n Hn. apply He. now apply In'.
  Qed.

  (* cmom() *)
  Theorem object_cmom_named : result_is (outer ++ md) sz (fun env => central_normal (named_moment x md env) (map env md)) (cx_cmom c).
  Proof.
    unfold cx_cmom. rewrite object_params. fold x. destruct (assign_moment_named x md object_moments true None "" [("weight", Plain (number 1)); ("ave", Plain (number 0))] object_positive) as (y & Ey & Hy & Dy & Sy & Ay).
    - pose proof object_sizes as OS. pose proof object_length as OL. destruct (map sz md) as [|n [|n1 [|? ?]]] eqn:Es; cbn [List.length] in OL; try lia; inversion OS as [|? ? L0 OS']; subst.
      + constructor; [|constructor; [|constructor]]; [exists [], (fun _ => [0])|exists [], (fun _ => [1])]; cbn [fst snd value_suits]; fold sz; rewrite Es; (split; [cbn [moment_names In]; auto|]);
          (split; [intros q Vq; repeat constructor; lia|]); (split; [apply number_fits|]); intros _ (z & C); discriminate C.
      + inversion OS' as [|? ? L1 _]; subst. constructor; [|constructor; [|constructor]]; [exists [], (fun _ => [0; 0])|exists [2], (fun q => nth (hd 0 q) [[1; 0]; [0; 1]] [])]; cbn [fst snd value_suits]; fold sz; rewrite Es;
          (split; [cbn [moment_names In]; auto|]).
        * split; [intros q Vq; repeat constructor; lia|]. split; [apply number_fits|]. intros _ (z & C); discriminate C.
        * split; [|split; [apply number_fits|intros _ (z & C); discriminate C]]. intros q Vq. inversion Vq as [|? k ? q' Hk Vq']; subst. inversion Vq'; subst. destruct k as [|[|k]]; [| |lia]; cbn [hd nth]; repeat constructor; lia.
    - exists y. split; [exact Ey|]. split; [exact Hy|]. split; [exact Dy|]. split; [exact Sy|]. intros env He. rewrite (Ay env He). cbn [map fst snd value_for]. destruct (object_inside env He) as [_ Vm].
      apply (set_normal (map sz md)); [exact object_length|exact Vm|intros q; apply number_over|intros q; apply number_over].
  Qed.

  Section Raw.
    Context (nmax : nat).
    Hypothesis Fit : Forall (fun d => dim_size x d <= S nmax) md.
    Lemma object_range : Forall (fun d => 2 <= dim_size x d <= S nmax) md.
    Proof. destruct H as (_ & _ & _ & _ & H5 & _). rewrite Forall_forall in *. auto. Qed.
    (* to_raw(): the dimensions stay where they are *)
    Theorem object_to_raw_named : result_is (x_dims x) sz (fun env => raw_of (named_moment x md env) (map env md)) (cx_to_raw nmax c None).
    Proof.
      unfold cx_to_raw. rewrite object_params. destruct (moments_type_named nmax "raw" md x false false object_moments object_range) as (y & Ey & R). fold x. rewrite Ey. cbn [rbind]. exists y. split; [reflexivity|exact R].
    Qed.
    (* with weight=, a number, an array or labelled: the moment dimensions come last *)
    Theorem object_to_raw_weight_named w : value_suits md true "" outer sz "weight" [] w ->
      result_is (outer ++ md) sz (fun env => if forallb (Nat.eqb 0) (map env md) then value_for md true "" outer "weight" w env [] else raw_of (named_moment x md env) (map env md)) (cx_to_raw nmax c (Some w)).
    Proof.
      intros FW. pose proof object_to_raw_named as (u & Eu & Hu & Du & Su & Au). unfold cx_to_raw in Eu |- *. destruct (x_moments_type _ _ _ _ _ _) as [u'|]; [|discriminate]. cbn [rbind] in Eu |- *. injection Eu as ->.
      rewrite object_params. pose proof object_moments as HM. assert (HMu : has_moments md u) by (destruct HM as (_ & M); split; [exact Hu|]; rewrite Du; exact M).
      assert (Szm : forall n, In n (x_dims x) -> dim_size u n = sz n) by exact Su.
      assert (Ou : except_name (x_dims u) md = outer) by (unfold outer; now rewrite Du).
      assert (Mu : map (dim_size u) md = map sz md) by (apply map_ext_in; intros n Hn; apply Szm; now apply HM).
      destruct (assign_moment_named u md HMu true None "" [("weight", w)]) as (y & Ey & Hy & Dy & Sy & Ay); rewrite ?Mu, ?Ou in *.
      - exact object_positive.
      - constructor; [|constructor]. pose proof object_sizes as OS. pose proof object_length as OL.
        assert (A : exists at_, In ("weight", ([], at_)) (moment_names true (map sz md)) /\ all_exist (map sz md) [] at_).
        { destruct (map sz md) as [|n [|n1 [|? ?]]]; cbn [List.length] in OL; try lia; inversion OS as [|? ? L0 OS']; subst.
          - exists (fun _ => [0]). split; [cbn [moment_names In]; auto|]. intros q Vq. repeat constructor; lia.
          - inversion OS'; subst. exists (fun _ => [0; 0]). split; [cbn [moment_names In]; auto|]. intros q Vq. repeat constructor; lia. }
        destruct A as (at_ & I & AE). exists [], at_. rewrite Mu, Ou. cbn [fst snd]. split; [exact I|]. split; [exact AE|]. split.
        + destruct w as [z|t]; cbn [value_suits] in FW |- *.
          * destruct FW as (F1 & F2 & F3 & F4 & F5). split; [exact F1|]. split; [exact F2|]. split; [exact F3|]. split; [|exact F5]. intros n Hn Ho. rewrite (F4 n Hn Ho). symmetry. apply Szm. apply except_name_In in Ho. apply Ho.
          * replace (map (dim_size u) outer) with (map sz outer); [exact FW|]. apply map_ext_in. intros n Hn. symmetry. apply Szm. apply except_name_In in Hn. apply Hn.
        + intros [O _]. exfalso. cbn in O. destruct O as [O|[O|[]]]; discriminate O.
      - assert (In' : forall n, In n (outer ++ md) -> In n (x_dims x)) by (intros n Hn; now apply (xm_In x md (proj1 HM) (proj1 (proj2 HM)) (proj2 (proj2 (proj2 HM)))) in Hn).
        exists y. split; [exact Ey|]. split; [exact Hy|]. split; [exact Dy|]. split; [intros n Hn; rewrite (Sy n Hn); auto|]. intros env He.
        assert (He' : inside_names (dim_size u) (outer ++ md) env) by (intros n Hn; rewrite Szm by auto; now apply He). rewrite (Ay env He'). cbn [map fst snd]. destruct (object_inside env He) as [_ Vm].
        etransitivity; [apply (set_weight (map sz md)); [exact object_length|exact Vm]|]. destruct (forallb _ _); [reflexivity|].
        rewrite moment_here by apply HM. apply Au. intros n Hn. apply He. apply (xm_In x md (proj1 HM) (proj1 (proj2 HM)) (proj2 (proj2 (proj2 HM)))). exact Hn.
    Qed.
    (* rmom() *)
    Theorem object_rmom_named : result_is (outer ++ md) sz (fun env => raw_normal (raw_of (named_moment x md env)) (map env md)) (cx_rmom nmax c).
    Proof.
      destruct (object_to_raw_weight_named (Plain (number 1)) (number_fits _ _)) as (y & Ey & Hy & Dy & Sy & Ay). exists y. split; [exact Ey|]. split; [exact Hy|]. split; [exact Dy|]. split; [exact Sy|].
      intros env He. rewrite (Ay env He). unfold raw_normal. destruct (forallb _ _); [apply number_over|reflexivity].
    Qed.
    (* wrap_raw(c.to_raw()) is c *)
    Theorem wrap_raw_of_to_raw_named : rbind (cx_to_raw nmax c None) (cx_wrap_raw nmax (params_for md)) = Ok c.
    Proof.
      unfold cx_to_raw, cx_wrap_raw. rewrite object_params. pose proof (moments_type_named_round_trip nmax md x "raw" "central" false false object_moments object_range) as R. fold x.
      destruct (x_moments_type nmax "raw" _ _ _ x) as [u|e]; cbn [rbind] in R |- *; [|discriminate R; split; [discriminate|intros X; now elim X]].
      rewrite R by (split; [discriminate|intros X; now elim X]). cbn [rmap rbind]. pose proof object_params as P. unfold x. destruct c as [o p]. cbn in P |- *. now rewrite P.
    Qed.
  End Raw.
End Stats.

(* wrap_raw of raw moments *)
Theorem wrap_raw_named : forall nmax md raw, has_moments md raw -> Forall (fun d => 2 <= dim_size raw d <= S nmax) md ->
  exists c, cx_wrap_raw nmax (params_for md) raw = Ok c /\ xholds c md /\ x_dims (cx_obj c) = x_dims raw /\ (forall n, In n (x_dims raw) -> dim_size (cx_obj c) n = dim_size raw n) /\
    (forall env, x_inside raw env -> x_at (cx_obj c) env = central_of (named_moment raw md env) (map env md)) /\
    cx_to_raw nmax c None = Ok raw.
Proof.
  intros nmax md raw HM F. pose proof (moments_type_named_round_trip nmax md raw "central" "raw" false false HM F) as R.
  destruct (moments_type_named nmax "central" md raw false false HM F) as (y & Ey & Hy & Dy & Sy & Ay). unfold cx_wrap_raw. rewrite Ey in *. cbn [rbind rmap] in R |- *. exists (CX y (params_for md)). split; [reflexivity|].
  pose proof HM as (Hx & Nm & Lm & Im). split; [|split; [exact Dy|split; [exact Sy|split]]].
  - split; [exact Hy|]. split; [exact Nm|]. split; [exact Lm|]. split; [cbn; rewrite Dy; exact Im|]. split; [|reflexivity]. rewrite Forall_forall in *. intros d Hd. cbn. rewrite (Sy d (Im d Hd)). now apply F.
  - intros env He. cbn. now apply Ay.
  - unfold cx_to_raw. cbn [cx_params cx_obj]. rewrite R; [reflexivity|]. split; [discriminate|reflexivity].
Qed.

(* the statistics of objects with one moment dimension *)
Theorem statistics_named_one : forall c d, xholds c [d] -> let x := cx_obj c in let outer := except_name (x_dims x) [d] in let at_order k := fun env => named_moment x [d] env [k] in
  result_is outer (dim_size x) (at_order 0) (cx_weight c) /\ result_is outer (dim_size x) (at_order 1) (cx_mean c true) /\
  (3 <= dim_size x d -> result_is outer (dim_size x) (at_order 2) (cx_var c true) /\ result_is outer (dim_size x) (at_order 2) (cx_cov c)) /\
  (dim_size x d < 3 -> cx_var c true = Raise EIndex /\ cx_cov c = Raise EIndex).
Proof.
  intros c d H x outer at_order. assert (P : 2 <= dim_size x d) by (destruct H as (_ & _ & _ & _ & F & _); inversion F; subst; assumption).
  assert (G : forall name at_, In (name, ([], at_)) (moment_names true [dim_size x d]) -> name <> "all" -> all_exist [dim_size x d] [] at_ -> (own_dim [d] true name -> False) -> selection_dims [d] true "variable" name = [] ->
    result_is outer (dim_size x) (fun env => named_moment x [d] env (at_ [])) (cx_select_moment c name true "variable" None)).
  { intros name at_ I Na AE NO E. pose proof (object_select_named c [d] H name true "variable" None [] at_ I Na AE) as R. cbv zeta in R. fold x outer in R. rewrite E, app_nil_r in R. apply R. intros O. now elim NO. }
  assert (NO : forall name, own_dim [d] true name -> False) by (intros name [_ [C|C]]; discriminate C).
  split; [|split; [|split]].
  - apply (G "weight" (fun _ => [0])); [cbn [moment_names In]; auto|discriminate|intros q Vq; repeat constructor; lia|apply NO|reflexivity].
  - apply (G "ave" (fun _ => [1])); [cbn [moment_names In]; auto|discriminate|intros q Vq; repeat constructor; lia|apply NO|reflexivity].
  - intros L. split.
    + apply (G "var" (fun _ => [2])); [cbn [moment_names In]; auto|discriminate|intros q Vq; repeat constructor; lia|apply NO|reflexivity].
    + apply (G "cov" (fun _ => [2])); [cbn [moment_names In]; tauto|discriminate|intros q Vq; repeat constructor; lia|apply NO|reflexivity].
  - intros L. unfold cx_var, cx_cov, cx_select_moment. rewrite (object_params c [d] H). assert (NE : ~ all_exist [dim_size x d] [] (fun _ => [2])) by (intros AE; specialize (AE [] ltac:(constructor)); inversion AE; subst; lia).
    split; [apply (select_moment_named_missing (cx_obj c) [d] (object_moments c [d] H) "var" true "variable" None [] (fun _ => [2]))|apply (select_moment_named_missing (cx_obj c) [d] (object_moments c [d] H) "cov" true "variable" None [] (fun _ => [2]))];
      try exact NE; try discriminate; try (intros O; now elim (NO _ O)); cbn [moment_names map In]; tauto.
Qed.
(* of objects with two: means and variances have the dimension "variable" *)
Theorem statistics_named_two : forall c a b squeeze, xholds c [a; b] -> let x := cx_obj c in let outer := except_name (x_dims x) [a; b] in
  result_is outer (dim_size x) (fun env => named_moment x [a; b] env [0; 0]) (cx_weight c) /\ result_is outer (dim_size x) (fun env => named_moment x [a; b] env [1; 1]) (cx_cov c) /\
  (combined_ok x [a; b] "variable" ->
    result_is (outer ++ ["variable"]) (sizes_with ["variable"] [2] (dim_size x)) (fun env => named_moment x [a; b] env (if Nat.eqb (env "variable") 0 then [1; 0] else [0; 1])) (cx_mean c squeeze) /\
    (3 <= dim_size x a -> 3 <= dim_size x b ->
      result_is (outer ++ ["variable"]) (sizes_with ["variable"] [2] (dim_size x)) (fun env => named_moment x [a; b] env (if Nat.eqb (env "variable") 0 then [2; 0] else [0; 2])) (cx_var c squeeze))) /\
  (In "variable" outer -> cx_mean c squeeze = Raise EValue).
Proof.
  intros c a b squeeze H x outer. assert (P : 2 <= dim_size x a /\ 2 <= dim_size x b) by (destruct H as (_ & _ & _ & _ & F & _); inversion F as [|? ? F1 F2]; inversion F2; subst; auto). destruct P as [Pa Pb].
  assert (G : forall sq name at_, In (name, ([], at_)) (moment_names sq [dim_size x a; dim_size x b]) -> name <> "all" -> all_exist [dim_size x a; dim_size x b] [] at_ -> ~ own_dim [a; b] sq name -> selection_dims [a; b] sq "variable" name = [] ->
    result_is outer (dim_size x) (fun env => named_moment x [a; b] env (at_ [])) (cx_select_moment c name sq "variable" None)).
  { intros sq name at_ I Na AE NO E. pose proof (object_select_named c [a; b] H name sq "variable" None [] at_ I Na AE) as R. cbv zeta in R. fold x outer in R. rewrite E, app_nil_r in R. apply R. intros O. now elim NO. }
  assert (V : forall name m0 m1, In (name, ([2], fun q => nth (hd 0 q) [m0; m1] [])) (moment_names squeeze [dim_size x a; dim_size x b]) -> In name ["ave"; "var"] -> valid [dim_size x a; dim_size x b] m0 -> valid [dim_size x a; dim_size x b] m1 ->
    combined_ok x [a; b] "variable" -> result_is (outer ++ ["variable"]) (sizes_with ["variable"] [2] (dim_size x)) (fun env => named_moment x [a; b] env (if Nat.eqb (env "variable") 0 then m0 else m1)) (cx_select_moment c name squeeze "variable" None)).
  { intros name m0 m1 I In' V0 V1 CO. assert (Na : name <> "all") by (destruct In' as [<-|[<-|[]]]; discriminate). assert (E : selection_dims [a; b] squeeze "variable" name = ["variable"]) by (destruct In' as [<-|[<-|[]]]; destruct squeeze; reflexivity).
    pose proof (object_select_named c [a; b] H name squeeze "variable" None [2] _ I Na) as R. cbv zeta in R. fold x outer in R. rewrite E in R. destruct R as (y & Ey & Hy & Dy & Sy & Ay).
    - intros q Vq. inversion Vq as [|? k ? q' Hk Vq']; subst. inversion Vq'; subst. destruct k as [|[|k]]; [exact V0|exact V1|lia].
    - intros _. split; [exact Logic.I|exact CO].
    - exists y. split; [exact Ey|]. split; [exact Hy|]. split; [exact Dy|]. split; [exact Sy|]. intros env He. rewrite (Ay env He). cbn [map hd].
      assert (B : env "variable" < 2) by (specialize (He "variable" ltac:(apply in_or_app; right; now left)); unfold sizes_with, name_bind in He; cbn in He; exact He).
      destruct (env "variable") as [|[|k]]; [reflexivity|reflexivity|lia]. }
  split; [|split; [|split]].
  - apply (G true "weight" (fun _ => [0; 0])); [cbn [moment_names In]; auto|discriminate|intros q Vq; repeat constructor; lia| |reflexivity]. intros [C _]. destruct C as [C|[C|[]]]; discriminate C.
  - apply (G true "cov" (fun _ => [1; 1])); [cbn [moment_names In]; tauto|discriminate|intros q Vq; repeat constructor; lia| |reflexivity]. intros [C _]. destruct C as [C|[C|[]]]; discriminate C.
  - intros CO. split.
    + apply (V "ave" [1; 0] [0; 1]); [cbn [moment_names In]; tauto|cbn; auto|repeat constructor; lia|repeat constructor; lia|exact CO].
    + intros La Lb. apply (V "var" [2; 0] [0; 2]); [cbn [moment_names In]; tauto|cbn; auto|repeat constructor; lia|repeat constructor; lia|exact CO].
  - intros I. unfold cx_mean, cx_select_moment. rewrite (object_params c [a; b] H). apply (select_moment_named_refused (cx_obj c) [a; b] (object_moments c [a; b] H)); [split; [cbn; auto|now left]|now right].
Qed.
