(* swap_dims is undone by the dictionary read the other way (C203). *)
From Coq Require Import String Permutation.
From Verif Require Import Base BaseLemmas Checks ModelPush ModelKernels ModelIndex ModelAxes ModelParams ModelWrap ModelSwap ModelMethodsX
  Spec SpecAxes SpecNd SpecLabel ProofAxes ProofArrays PropAxes PropParams PropWrap PropReshape PropLabelled ProofIndex ProofLabel PropMethodsXCheck PropMethodsSCheck PropSwap PropSwapUse PropSwapCheck.
Local Open Scope string_scope.
Local Open Scope nat_scope.

(* the dictionary read the other way *)
Definition back (l : list (sname * sname)) : list (sname * sname) := map (fun p => (snd p, fst p)) l.
Lemma back_fst l : map fst (back l) = map snd l.
Proof. unfold back. rewrite map_map. reflexivity. Qed.
Lemma back_In l a b : In (a, b) (back l) <-> In (b, a) l.
Proof. unfold back. rewrite in_map_iff. split; [intros ([u v] & E & I); cbn in E; now injection E as <- <-|]. intros I. now exists (b, a). Qed.

Section Back.
  Context (l : list (sname * sname)) (f g : sname -> sname) (x : xarr).
  Hypothesis Nl : NoDup (map fst l).
  Hypothesis G : gives l f.
  Hypothesis G' : gives (back l) g.
  Hypothesis Sw : swappable l f x.
  Let Inj a b : In a (x_dims x) -> In b (x_dims x) -> f a = f b -> a = b.
  Proof. destruct Sw. now apply NoDup_map_eq. Qed.
  Lemma key_value a : In a (map snd l) <-> exists n, In n (map fst l) /\ f n = a.
  Proof.
    rewrite in_map_iff. split.
    - intros ([n b] & <- & I). exists n. split; [apply in_map_iff; now exists (n, b)|now apply G].
    - intros (n & I & <-). apply in_map_iff in I. destruct I as ([n' b] & <- & I). exists (n', b). split; [symmetry; now apply G|exact I].
  Qed.
  Lemma not_value n : In n (x_dims x) -> ~ In n (map fst l) -> ~ In n (map snd l).
  Proof.
    intros Hn Nn Q. apply key_value in Q. destruct Q as (a & Ia & E). apply Nn. pose proof (proj2 G n Nn) as Fn. assert (a = n); [|now subst a]. apply Inj; [now apply Sw|exact Hn|congruence].
  Qed.
  Lemma back_gives n : In n (x_dims x) -> g (f n) = n.
  Proof.
    intros Hn. destruct (in_dec string_dec n (map fst l)) as [I|I].
    - apply in_map_iff in I. destruct I as ([a b] & E & I). cbn in E. subst a. rewrite (proj1 G _ _ I). apply G'. now apply back_In.
    - rewrite (proj2 G n I). apply G'. rewrite back_fst. now apply not_value.
  Qed.
  Lemma back_keys : NoDup (map fst (back l)).
  Proof.
    rewrite back_fst. replace (map snd l) with (map f (map fst l)).
    - destruct Sw as [I _]. clear - Nl Inj I. revert Nl I. generalize (map fst l). intros ks. induction ks as [|k ks IH]; intros N I; [constructor|]. inversion_clear N as [|? ? Nk N']. cbn [map]. constructor; [|apply IH; [exact N'|intros a Ha; apply I; now right]].
      intros Q. apply in_map_iff in Q. destruct Q as (a & E & Ha). apply Nk. replace k with a; [exact Ha|]. apply Inj; [apply I; now right|apply I; now left|exact E].
    - rewrite map_map. apply map_ext_in. intros [a b] I. cbn [fst snd]. now apply G.
  Qed.
End Back.

(* C203 *)
Theorem swap_back : forall c md l f, xholds c md -> NoDup (map fst l) -> gives l f -> (forall m, In m md -> ~ In m (map fst l)) -> swappable l f (cx_obj c) ->
  exists c' c'', cx_swap_dims c l true = Ok c' /\ cx_swap_dims c' (back l) true = Ok c'' /\ xholds c'' md /\ cx_params c'' = cx_params c /\
    x_same (cx_obj c) (cx_obj c'') /\ x_dims (cx_obj c'') = (except_name (x_dims (cx_obj c)) md ++ md)%list.
Proof.
  intros c md l f H Nl G D Sw. assert (Fm : forall m, In m md -> f m = m) by (intros m Hm; apply G; now apply D). pose proof H as (Ho & Nm & Lm & Im & _ & Pc). pose proof Ho as (_ & Nd & _).
  destruct (proj1 (swap_named c md l f H Nl G)) as (y & Ey & Hy & Ry & Dy). { split; [exact Sw|]. intros m Hm. exists m. split; [now apply Im|]. split; [now apply Fm|reflexivity]. }
  set (x := cx_obj c) in *. pose (g := new_name (back l)).
  pose proof (back_keys l f x Nl G Sw) as Nb. pose proof (new_name_gives (back l) Nb) as G'. fold g in G'.
  pose proof (back_gives l f g x G G' Sw) as GF. pose proof Ry as (R1 & R2 & R3).
  assert (Iy : forall n, In n (x_dims y) -> exists a, In a (x_dims x) /\ f a = n /\ g n = a) by (intros n Hn; apply R1 in Hn; apply in_map_iff in Hn; destruct Hn as (a & <- & Ia); exists a; auto).
  assert (Ny : NoDup (x_dims y)) by apply Hy.
  assert (Sb : swappable (back l) g y).
  { split.
    - rewrite back_fst. intros n Hn. apply (key_value l f G) in Hn. destruct Hn as (a & Ia & <-). apply R1, in_map. now apply Sw.
    - assert (Q : forall ks, NoDup ks -> incl ks (x_dims y) -> NoDup (map g ks)); [|apply Q; [exact Ny|apply incl_refl]].
      induction ks as [|k ks IH]; intros N I; [constructor|]. inversion_clear N as [|? ? Nk N']. cbn [map]. constructor; [|apply IH; [exact N'|intros a Ha; apply I; now right]].
      intros Q. apply in_map_iff in Q. destruct Q as (b & E & Hb). apply Nk. destruct (Iy b (I b (or_intror Hb))) as (b' & _ & <- & E1), (Iy k (I k (or_introl eq_refl))) as (k' & _ & <- & E2). congruence. }
  assert (Db : forall m, In m md -> ~ In m (map fst (back l))) by (intros m Hm; rewrite back_fst; apply (not_value l f x G Sw); [now apply Im|now apply D]).
  assert (Gm : forall m, In m md -> g m = m) by (intros m Hm; apply G'; now apply Db).
  destruct (proj1 (swap_named _ md (back l) g Hy Nb G')) as (z & Ez & Hz & Rz & Dz). { split; [exact Sb|]. cbn [cx_obj]. intros m Hm. exists m. split; [apply R1; rewrite <- (Fm m Hm); apply in_map; now apply Im|]. split; [now apply Gm|reflexivity]. }
  cbn [cx_obj cx_params] in *. pose proof Rz as (Z1 & Z2 & Z3).
  exists (CX y (cx_params c)), (CX z (cx_params c)). split; [exact Ey|]. split; [exact Ez|]. split; [exact Hz|]. split; [reflexivity|]. cbn [cx_obj]. split; [split; [|split]|].
  - intros n. rewrite Z1, in_map_iff. split; [intros Hn; exists (f n); split; [now apply GF|apply R1; now apply in_map]|]. intros (b & <- & Hb). destruct (Iy b Hb) as (a & Ia & _ & ->). exact Ia.
  - intros n Hn. rewrite <- (GF n Hn) at 2. rewrite Z2 by (apply R1; now apply in_map). symmetry. now apply R2.
  - assert (Sz : forall n, In n (x_dims x) -> dim_size z n = dim_size x n) by (intros n Hn; rewrite <- (GF n Hn) at 1; rewrite Z2 by (apply R1; now apply in_map); now apply R2).
    intros env He. rewrite Z3.
    + rewrite R3; [apply (f_equal (tget (x_val x))); apply map_ext_in; intros n Hn; now rewrite GF|]. intros b Hb. destruct (Iy b Hb) as (a & Ia & <- & Ea). rewrite Ea, (R2 a Ia). now apply He.
    + intros n Hn. apply Z1, in_map_iff in Hn. destruct Hn as (b & <- & Hb). destruct (Iy b Hb) as (a & Ia & _ & ->). rewrite (Sz a Ia). now apply He.
  - rewrite Dz, Dy. fold x. rewrite map_app, except_app. assert (E1 : map g md = md) by (rewrite (map_ext_in g id) by exact Gm; apply map_id). rewrite E1, (except_all _ md md) by auto. rewrite app_nil_r. f_equal.
    assert (Q : forall ks, incl ks (x_dims x) -> except_name (map g (except_name (map f ks) md)) md = except_name ks md); [|apply Q, incl_refl].
    induction ks as [|k ks IH]; intros I; [reflexivity|]. specialize (IH (fun a Ha => I a (or_intror Ha))). assert (Ik : In k (x_dims x)) by (apply I; now left). assert (Fk : In (f k) md <-> In k md) by (split; intros Q; [rewrite <- (GF k Ik), (Gm _ Q); exact Q|now rewrite Fm]).
    unfold except in *. cbn [map filter]. destruct (in_dec string_dec (f k) md) as [M|M], (in_dec string_dec k md) as [M'|M']; try tauto. cbn [map filter]. rewrite (GF k Ik). destruct (in_dec string_dec k md); [tauto|]. now rewrite IH.
Qed.

(* x becomes y and y becomes z, and back; the moments go last and stay there *)
Example swap_back_ex : let l := [("x", "y"); ("y", "z")] in let f := new_name l in
  xholds wx ["mom"] /\ NoDup (map fst l) /\ gives l f /\ (forall m, In m ["mom"] -> ~ In m (map fst l)) /\ swappable l f (cx_obj wx) /\
  cxeqb (cx_swap_dims wx l true) ["y"; "z"; "mom"] (Tensor [2; 2; 3] (lz [1; 5; 9; 2; 6; 10; 3; 7; 11; 4; 8; 12]%Z)) = true /\
  cxeqb (rbind (cx_swap_dims wx l true) (fun c => cx_swap_dims c (back l) true)) ["x"; "y"; "mom"] (Tensor [2; 2; 3] (lz [1; 5; 9; 2; 6; 10; 3; 7; 11; 4; 8; 12]%Z)) = true.
Proof.
  intros l f. assert (N : NoDup (map fst l)) by nodup. split; [exact wx_holds|]. split; [exact N|]. split; [now apply new_name_gives|]. split; [intros m [<-|[]]; cbn; intuition discriminate|].
  split; [split; [intros n Hn; cbn in Hn |- *; tauto|nodup]|]. split; vm_compute; reflexivity.
Qed.
