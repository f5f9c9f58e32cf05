(* Conversion of moments of arrays with several axes: raw and central moments,
   moments and comoments. *)
From Coq Require Import Permutation String.
From Verif Require Import Base BaseLemmas Shift ModelPush ModelConvert ProofPush ProofPushCov ProofConvert ModelKernels ModelIndex ModelAxes ModelNd ModelWrap ModelMoments
  Spec SpecAxes SpecNd SpecMoments ProofAxes ProofArrays ProofMulti PropAxes ProofNd PropWrap SpecMethods ProofMoments ProofIndex PropConvert.
Local Notation length := List.length (only parsing).

Section Convert.
  Context (nmax : nat) (to : string) (mom_axes : list Z) (M L : list nat) (t : tensor).
  Hypothesis H : moment_axes mom_axes M L t.
  Let n := tndim t.
  Let sh := shape_of t.
  Let OX (to_end : bool) : list nat := if to_end then L ++ M else seq 0 n.

  Lemma conv_OX to_end : NoDup (OX to_end) /\ length (OX to_end) = n /\ incl M (OX to_end) /\ except_nat (OX to_end) M = L.
  Proof.
    destruct (ax_all mom_axes M L t H) as (N & Len & R). unfold OX. destruct to_end.
    - split; [exact N|]. split; [exact Len|]. split; [intros a Ha; apply in_or_app; now right|].
      rewrite except_app, (except_all _ M) by auto. rewrite app_nil_r. apply except_none.
      intros x Hx Hy. destruct (NoDup_app_parts _ _ N) as (_ & _ & X). exact (X x Hx Hy).
    - split; [apply seq_NoDup|]. split; [apply seq_length|]. split; [intros a Ha; apply in_seq; pose proof (ax_range _ _ _ _ H a Ha); unfold n; lia|].
      symmetry. apply (ax_L _ _ _ _ H).
  Qed.
  Lemma seq_index c : c < n -> index_of c (seq 0 n) = c.
  Proof.
    intros Hc. pose proof (index_of_nth (seq 0 n) c (seq_NoDup _ _)) as X. rewrite seq_length, seq_nth in X by exact Hc. exact (X Hc).
  Qed.
  Lemma conv_out to_end : Forall2 (is_axis (length (OX to_end))) (if to_end then axes_last (length mom_axes) else mom_axes)
    (map (fun c => index_of c (OX to_end)) M).
  Proof.
    destruct (conv_OX to_end) as (N & Len & _). rewrite Len. unfold OX in *. destruct to_end.
    - pose proof (ax_len _ _ _ _ H) as X. fold n in X. rewrite (ax_lenM _ _ _ _ H).
      rewrite (positions_tail L M N). apply axes_last_positions; [lia|]. f_equal. lia.
    - rewrite (map_ext_in _ (fun c => c)); [rewrite map_id; apply (ax_M _ _ _ _ H)|]. intros c Hc. apply seq_index. exact (ax_range _ _ _ _ H c Hc).
  Qed.
  Lemma conv_in : operand L sh (t, mom_axes) (seq 0 n) M sh (entry t).
  Proof.
    destruct (conv_OX false) as (N & Len & I & E). unfold OX in *. constructor; cbn [fst snd].
    - apply view_self, (ax_ok _ _ _ _ H).
    - exact N.
    - apply (ax_nodup _ _ _ _ H).
    - exact I.
    - exact (conv_out false).
    - exists []. cbn. now rewrite E.
    - auto.
  Qed.
  Lemma conv_core : core_axes (t, mom_axes) = Ok (t, M).
  Proof.
    rewrite (operand_core_axes _ _ _ _ _ _ _ conv_in). unfold named; cbn [fst]. f_equal. f_equal.
    rewrite (map_ext_in _ (fun c => c)); [apply map_id|]. intros c Hc. apply seq_index. exact (ax_range _ _ _ _ H c Hc).
  Qed.
  Lemma conv_lengths : core_lengths (t, M) = map sh M.
  Proof. reflexivity. Qed.
  Lemma conv_loop : loop_shape (t, M) = map sh L.
  Proof.
    pose proof (operand_core_axes _ _ _ _ _ _ _ conv_in) as E. rewrite conv_core in E. injection E as E.
    pose proof (operand_loop_shape _ _ _ _ _ _ _ conv_in) as X. unfold named in X. cbn [fst] in X. rewrite <- E in X. rewrite X.
    now rewrite (ax_L _ _ _ _ H).
  Qed.
  Lemma conv_place to_end : place (tndim t) (map (fun c => index_of c (OX to_end)) M) (loop_shape (t, M)) (core_lengths (t, M)) = map sh (OX to_end).
  Proof.
    destruct (conv_OX to_end) as (N & Len & I & E). rewrite conv_loop, conv_lengths. fold n. rewrite <- Len at 1. rewrite <- E.
    apply place_shape; [exact N|apply (ax_nodup _ _ _ _ H)|exact I].
  Qed.
  (* the conversion runs the kernel on every moment array *)
  Lemma conv_run to_end order : (order = true -> map sh (OX to_end) = tshape t) ->
    match moments_type_nd nmax to mom_axes to_end order t with
    | Ok out => tensor_ok out /\ tshape out = map sh (OX to_end) /\
        forall env, inside sh (OX to_end) env -> exists h,
          convert_kernel nmax to (map sh M) (fun m => entry t (bind M m env)) = Ok h /\ tget out (map env (OX to_end)) = h (map env M)
    | Raise e => exists env, inside sh L env /\ convert_kernel nmax to (map sh M) (fun m => entry t (bind M m env)) = Raise e
    end.
  Proof.
    intros HO. destruct (conv_OX to_end) as (N & Len & I & E). unfold moments_type_nd. rewrite conv_core. cbn [rbind].
    pose proof (conv_out to_end) as F. assert (F' := F). rewrite Len in F'. fold n.
    rewrite (normalize_ints n _ _ F') by (apply positions_NoDup; [apply (ax_nodup _ _ _ _ H)|exact I]). cbn [rbind].
    pose proof (conv_place to_end) as EP. fold n in EP. rewrite EP.
    replace (order && negb (nats_eqb (map sh (OX to_end)) (tshape t)))%bool with false.
    2:{ destruct order; [|reflexivity]. rewrite HO by reflexivity. cbn. now rewrite nats_eqb_refl. }
    rewrite conv_lengths.
    pose proof (gufunc_named 0%Qc L sh (OX to_end) M sh N (ax_nodup _ _ _ _ H) I E (fun _ _ => eq_refl) [(t, mom_axes)] [(t, M)]
      (if to_end then axes_last (length mom_axes) else mom_axes)
      (fun l => convert_kernel nmax to (map sh M) (acc l 0)) (fun env => convert_kernel nmax to (map sh M) (fun m => entry t (bind M m env)))) as G.
    cbn [mapR] in G. rewrite conv_core in G. specialize (G eq_refl).
    assert (EB : broadcast_shapes (map loop_shape [(t, M)]) = Ok (map sh L)).
    { cbn [map]. rewrite conv_loop. unfold broadcast_shapes. cbn [foldR]. unfold bcast. cbn [rev bcast_rev rbind]. now rewrite rev_involutive. }
    specialize (G EB F).
    assert (HF : forall env, inside sh L env ->
      convert_kernel nmax to (map sh M) (acc (map (fun a => core_elem a (map env L)) [(t, M)]) 0) = convert_kernel nmax to (map sh M) (fun m => entry t (bind M m env))).
    { intros env IE. apply convert_ext. intros m Vm. cbn [map acc nth].
      pose proof (operand_core_axes _ _ _ _ _ _ _ conv_in) as E0. rewrite conv_core in E0. injection E0 as E0.
      pose proof (operand_elem _ _ _ _ _ _ _ env m conv_in IE Vm) as X. unfold named in X. cbn [fst] in X. rewrite <- E0 in X.
      unfold acc. cbn [nth]. rewrite X. unfold entry. f_equal. apply map_ext_in. intros a Ha.
      destruct (in_dec Nat.eq_dec a M) as [C|C].
      - apply bind_bound; [apply (ax_nodup _ _ _ _ H)| |exact C]. pose proof (valid_length _ _ Vm) as X'. now rewrite map_length in X'.
      - rewrite !bind_out by exact C. unfold clip. destruct (Nat.eqb_spec (sh a) 1) as [Ea|]; [|reflexivity].
        assert (In a L) by (rewrite (ax_L _ _ _ _ H); apply except_In; tauto). specialize (IE a H0). lia. }
    specialize (G HF). destruct (gufunc 0%Qc _ _ _ _) as [g|e]; cbn [rmap rbind].
    - destruct G as (G1 & G2 & G3). split; [exact G1|]. split; [exact G2|]. exact G3.
    - exact G.
  Qed.
End Convert.

(* ---- raw and central moments -------------------------------------------------------- *)

(* axes of moments that the kernels can work on *)
Definition convertible (nmax : nat) (t : tensor) (M : list nat) : Prop :=
  (length M = 1 \/ length M = 2) /\ Forall (fun a => 2 <= shape_of t a <= S nmax) M.
Definition central_or_raw (to : string) (f : list nat -> Qc) : list nat -> Qc := if string_dec to "central" then central_of f else raw_of f.

Lemma converted_spec to f m : converted to f m = central_or_raw to f m.
Proof.
  unfold converted, central_or_raw. destruct (string_dec to "central") as [E|E].
  - apply String.eqb_eq in E. now rewrite E.
  - apply String.eqb_neq in E. now rewrite E.
Qed.
Lemma convertible_shape nmax t M : convertible nmax t M ->
  (length (map (shape_of t) M) = 1 \/ length (map (shape_of t) M) = 2) /\ Forall (fun n => 2 <= n <= S nmax) (map (shape_of t) M).
Proof. intros (A & B). rewrite map_length. split; [exact A|]. now apply Forall_map. Qed.
Lemma kernel_entries nmax to mom_axes M L t p m : moment_axes mom_axes M L t -> valid (map (shape_of t) L) p -> valid (map (shape_of t) M) m ->
  convert_kernel nmax to (map (shape_of t) M) (fun m' => entry t (bind M m' (bind M m (bind L p (fun _ => 0))))) =
  convert_kernel nmax to (map (shape_of t) M) (moment_entry t M L p).
Proof.
  intros H Vp Vm. apply convert_ext. intros m' V'. unfold moment_entry, entry. f_equal. apply map_ext_in. intros a Ha.
  destruct (in_dec Nat.eq_dec a M) as [C|C]; [|now rewrite !(bind_out M) by exact C].
  apply bind_bound; [apply (ax_nodup _ _ _ _ H)| |exact C]. pose proof (valid_length _ _ V') as X. now rewrite map_length in X.
Qed.

Section Type_.
  Context (nmax : nat) (mom_axes : list Z) (M L : list nat) (t : tensor).
  Hypothesis H : moment_axes mom_axes M L t.
  Let sh := shape_of t.

  (* C120: every moment array of the input is converted; the axes stay *)
  Theorem moments_type_entries to order : convertible nmax t M ->
    exists out, moments_type_nd nmax to mom_axes false order t = Ok out /\ moment_axes mom_axes M L out /\ tshape out = tshape t /\
      forall p m, valid (map sh L) p -> valid (map sh M) m ->
        moment_entry out M L p m = central_or_raw to (moment_entry t M L p) m.
  Proof.
    intros C. destruct (convertible_shape nmax t M C) as (C1 & C2).
    assert (ES : map sh (seq 0 (tndim t)) = tshape t) by (unfold sh, shape_of; now apply map_nth_seq).
    pose proof (conv_run nmax to mom_axes M L t H false order (fun _ => ES)) as R. cbn match in R. fold sh in R.
    destruct (moments_type_nd _ _ _ _ _ _) as [out|e].
    - destruct R as (To & Ts & R). fold sh in Ts. rewrite ES in Ts. exists out. split; [reflexivity|].
      assert (N : tndim out = tndim t) by (unfold tndim; now rewrite Ts).
      split; [destruct H as (_ & A & B & D); repeat split; try assumption; now rewrite N|]. split; [exact Ts|].
      intros p m Vp Vm. set (env := bind M m (bind L p (fun _ => 0))).
      assert (I : inside sh (seq 0 (tndim t)) env).
      { intros a Ha. apply (parts_inside mom_axes M L t H p m Vp Vm). destruct (ax_all _ _ _ _ H) as (_ & _ & X). apply X. apply in_seq in Ha. lia. }
      destruct (R env I) as (h & Eh & Eg). unfold env in Eh. pose proof (kernel_entries nmax to mom_axes M L t p m H Vp Vm) as KE. fold sh in KE. rewrite KE in Eh. clear KE.
      destruct (convert_all nmax to (map sh M) (moment_entry t M L p) C1 C2) as (h' & Eh' & Hh). rewrite Eh' in Eh. injection Eh as ->.
      unfold moment_entry at 1. unfold entry. rewrite N. fold env. rewrite Eg. unfold env. rewrite <- converted_spec, <- Hh by exact Vm. f_equal.
      apply (parts_M mom_axes M L t H p m). pose proof (valid_length _ _ Vm) as X. now rewrite map_length in X.
    - destruct R as (env & _ & E). destruct (convert_all nmax to (map sh M) (fun m => entry t (bind M m env)) C1 C2) as (h & Eh & _). unfold sh in *. congruence.
  Qed.
  (* axes_to_end: the moments are put last *)
  Theorem moments_type_to_end to order : convertible nmax t M -> (order = true -> map sh L ++ map sh M = tshape t) ->
    exists out, moments_type_nd nmax to mom_axes true order t = Ok out /\ tensor_ok out /\ tshape out = map sh L ++ map sh M /\
      forall p m, valid (map sh L) p -> valid (map sh M) m ->
        tget out (p ++ m) = central_or_raw to (moment_entry t M L p) m.
  Proof.
    intros C HO. destruct (convertible_shape nmax t M C) as (C1 & C2).
    pose proof (conv_run nmax to mom_axes M L t H true order) as R. cbn match in R. fold sh in R. rewrite <- map_app in HO. specialize (R HO).
    destruct (moments_type_nd _ _ _ _ _ _) as [out|e].
    - destruct R as (To & Ts & R). exists out. split; [reflexivity|]. split; [exact To|]. split; [rewrite <- map_app; exact Ts|].
      intros p m Vp Vm. set (env := bind M m (bind L p (fun _ => 0))).
      assert (I : inside sh (L ++ M) env) by exact (parts_inside mom_axes M L t H p m Vp Vm).
      destruct (R env I) as (h & Eh & Eg). unfold env in Eh. pose proof (kernel_entries nmax to mom_axes M L t p m H Vp Vm) as KE. fold sh in KE. rewrite KE in Eh. clear KE.
      destruct (convert_all nmax to (map sh M) (moment_entry t M L p) C1 C2) as (h' & Eh' & Hh). rewrite Eh' in Eh. injection Eh as ->.
      pose proof (valid_length _ _ Vm) as Lm. pose proof (valid_length _ _ Vp) as Lp. rewrite map_length in Lm, Lp.
      rewrite map_app in Eg. unfold env in Eg. fold (at_parts M L p m) in Eg.
      rewrite (parts_L mom_axes M L t H p m Lp), (parts_M mom_axes M L t H p m) in Eg by assumption. rewrite Eg.
      rewrite <- converted_spec. now apply Hh.
    - destruct R as (env & _ & E). destruct (convert_all nmax to (map sh M) (fun m => entry t (bind M m env)) C1 C2) as (h & Eh & _). unfold sh in *. congruence.
  Qed.
  (* an order of the memory together with axes_to_end is refused when the shape changes *)
  Theorem moments_type_order_refused to : map sh L ++ map sh M <> tshape t ->
    moments_type_nd nmax to mom_axes true true t = Raise EValue.
  Proof.
    intros NE. unfold moments_type_nd. rewrite (conv_core mom_axes M L t H). cbn [rbind].
    destruct (conv_OX mom_axes M L t H true) as (N & Len & I & E). pose proof (conv_out mom_axes M L t H true) as F'. cbn match in *. cbv beta match in F'. rewrite Len in F'. pose proof (conv_place mom_axes M L t H true) as EP. cbv beta match in EP.
    rewrite (normalize_ints (tndim t) _ _ F') by (apply positions_NoDup; [apply (ax_nodup _ _ _ _ H)|exact I]). cbn [rbind].
    rewrite EP, map_app. fold sh.
    destruct (nats_eqb (map sh L ++ map sh M) (tshape t)) eqn:Q; [apply nats_eqb_eq in Q; congruence|]. reflexivity.
  Qed.
  (* axes of moments that are too short or too long for the table of binomials *)
  Theorem moments_type_outside to to_end p m : length M = 1 \/ length M = 2 -> Exists (fun a => sh a < 2 \/ S nmax < sh a) M ->
    valid (map sh L) p -> valid (map sh M) m ->
    moments_type_nd nmax to mom_axes to_end false t = Raise EMem.
  Proof.
    intros C EX Vp Vm. assert (K : forall l, convert_kernel nmax to (map sh M) l = Raise EMem).
    { intros l. unfold convert_kernel. replace (existsb _ (map sh M)) with true; [reflexivity|]. symmetry. apply existsb_exists.
      apply Exists_exists in EX. destruct EX as (a & Ha & Ea). exists (sh a). split; [now apply in_map|].
      apply Bool.orb_true_iff. rewrite !Nat.ltb_lt. exact Ea. }
    pose proof (conv_run nmax to mom_axes M L t H to_end false) as R. fold sh in R. specialize (R ltac:(discriminate)).
    destruct (moments_type_nd _ _ _ _ _ _) as [out|e].
    - destruct R as (_ & _ & R). specialize (R (at_parts M L p m)). destruct R as (h & Eh & _); [|rewrite K in Eh; discriminate].
      pose proof (parts_inside mom_axes M L t H p m Vp Vm) as I. destruct to_end; [exact I|]. intros a Ha. apply I.
      destruct (ax_all _ _ _ _ H) as (_ & _ & X). apply X. apply in_seq in Ha. lia.
    - destruct R as (env & _ & E). rewrite K in E. congruence.
  Qed.
End Type_.

(* every name of a type other than "central" means raw moments *)
Theorem moments_type_other_names nmax to mom_axes to_end order t : to <> "central"%string ->
  moments_type_nd nmax to mom_axes to_end order t = moments_type_nd nmax "raw" mom_axes to_end order t.
Proof.
  intros N. assert (E : String.eqb to "central" = false) by (now apply String.eqb_neq).
  assert (K : forall s l, convert_kernel nmax to s l = convert_kernel nmax "raw" s l) by (intros s l; unfold convert_kernel; now rewrite E).
  unfold moments_type_nd. destruct (core_axes _) as [c|]; [|reflexivity]. cbn [rbind]. destruct (normalize_axis_tuple _ _ _ _) as [oc|]; [|reflexivity]. cbn [rbind].
  destruct (order && _)%bool; [reflexivity|]. f_equal. unfold gufunc. destruct (mapR core_axes _) as [ins|]; [|reflexivity]. cbn [rbind].
  destruct (broadcast_shapes _) as [s|]; [|reflexivity]. cbn [rbind]. destruct (normalize_axis_tuple _ _ _ _) as [o|]; [|reflexivity]. cbn [rbind].
  f_equal. apply mapR_ext. intros. apply K.
Qed.

(* ---- there and back ------------------------------------------------------------------ *)

Lemma ok_inj {X} (a b : X) : Ok a = Ok b -> a = b.
Proof. congruence. Qed.
Lemma unpack1_pack n (a : arr) : wf1 n a -> pk_pack (packer1 n) (pk_unpack (packer1 n) a) = a.
Proof.
  intros W. apply arr_ext; [rewrite (pack1_wf n); now rewrite W|]. intros k Hk. rewrite (pack1_wf n) in Hk.
  rewrite pack1_get by lia. reflexivity.
Qed.
Lemma unpack2_pack n0 n1 (a : arr2) : wf2 n0 n1 a -> pk_pack (packer2 n0 n1) (pk_unpack (packer2 n0 n1) a) = a.
Proof.
  intros W. apply (arr2_ext (S n0) (S n1)); [apply pack2_wf|exact W|]. intros i j Hi Hj.
  rewrite pack2_get by lia. reflexivity.
Qed.
Lemma converted_ext nmax to s f g m : (length s = 1 \/ length s = 2) -> Forall (fun n => 2 <= n <= S nmax) s ->
  (forall m, valid s m -> f m = g m) -> valid s m -> converted to f m = converted to g m.
Proof.
  intros Ls F E V. destruct (convert_all nmax to s f Ls F) as (h & Eh & Hh). destruct (convert_all nmax to s g Ls F) as (h' & Eh' & Hh').
  rewrite (convert_ext nmax to s f g E) in Eh. rewrite <- Hh, <- Hh' by exact V. congruence.
Qed.
Lemma converted_back nmax to to' s f m : (length s = 1 \/ length s = 2) -> Forall (fun n => 2 <= n <= S nmax) s ->
  (to = "central" <-> to' <> "central")%string -> valid s m -> converted to' (converted to f) m = f m.
Proof.
  intros Ls F X V. destruct (convert_all nmax to s f Ls F) as (h & Eh & Hh).
  rewrite (converted_ext nmax to' s (converted to f) h m Ls F) by (assumption || (intros m' V'; symmetry; now apply Hh)).
  destruct (convert_all nmax to' s h Ls F) as (h' & Eh' & Hh'). rewrite <- Hh' by exact V.
  assert (EB : String.eqb to' "central" = negb (String.eqb to "central")).
  { destruct (String.eqb_spec to "central") as [A|A], (String.eqb_spec to' "central") as [B|B]; try reflexivity; tauto. }
  unfold convert_kernel in Eh, Eh'. destruct (existsb _ s) eqn:EX; [discriminate|]. rewrite EB in Eh'.
  destruct s as [|n0 [|n1 [|? ?]]]; cbn in Ls; try lia; inversion F as [|? ? F0 F']; subst.
  - apply ok_inj in Eh, Eh'. subst h. subst h'. inversion V as [|? k ? m' Hk V']; subst. inversion V'; subst.
    rewrite unpack1_pack.
    + destruct (String.eqb to "central"); cbn [negb].
      * rewrite (c2r_r2c nmax (n0 - 1)) by (try apply pack1_wf; lia). cbn [packer1 pk_unpack nth]. rewrite pack1_get by lia. reflexivity.
      * rewrite (r2c_c2r nmax (n0 - 1)) by (try apply pack1_wf; lia). cbn [packer1 pk_unpack nth]. rewrite pack1_get by lia. reflexivity.
    + destruct (String.eqb to "central"); [apply r2c_length|apply c2r_length]; try apply pack1_wf; lia.
  - inversion F' as [|? ? F1 _]; subst. apply ok_inj in Eh, Eh'. subst h. subst h'. inversion V as [|? i ? m' Hi V']; subst. inversion V' as [|? j ? m'' Hj V'']; subst. inversion V''; subst.
    rewrite unpack2_pack.
    + destruct (String.eqb to "central"); cbn [negb].
      * rewrite (c2r2_r2c2 nmax (n0 - 1) (n1 - 1)) by (try apply pack2_wf; lia). cbn [packer2 pk_unpack nth]. rewrite pack2_get by lia. reflexivity.
      * rewrite (r2c2_c2r2 nmax (n0 - 1) (n1 - 1)) by (try apply pack2_wf; lia). cbn [packer2 pk_unpack nth]. rewrite pack2_get by lia. reflexivity.
    + destruct (String.eqb to "central"); [apply r2c2_wf|apply c2r2_wf]; apply pack2_wf.
Qed.
(* arrays with the same entries by position are the same *)
Lemma moment_entries_ext mom_axes M L t u : moment_axes mom_axes M L t -> tensor_ok u -> tshape u = tshape t ->
  (forall p m, valid (map (shape_of t) L) p -> valid (map (shape_of t) M) m -> moment_entry u M L p m = moment_entry t M L p m) -> u = t.
Proof.
  intros H Hu Su E. destruct (ax_all _ _ _ _ H) as (N & Len & R). apply tensor_ext; [exact Hu|apply H|exact Su|].
  intros idx V. set (env := fun a => nth a idx 0). assert (NV : tndim u = tndim t) by (unfold tndim; now rewrite Su).
  rewrite Su in V. pose proof (valid_length _ _ V) as Li. change (length (tshape t)) with (tndim t) in Li.
  assert (I : inside (shape_of t) (L ++ M) env).
  { intros a Ha. apply R in Ha. unfold env, shape_of. clear -V Ha. unfold tndim in Ha. revert a Ha. induction V as [|n i s l Hn V IH]; intros a Ha; [cbn in Ha; lia|].
    destruct a as [|a]; [exact Hn|]. cbn [nth]. apply IH. cbn in Ha. lia. }
  specialize (E (map env L) (map env M)). 
  assert (EI : map (bind M (map env M) (bind L (map env L) (fun _ => 0))) (seq 0 (tndim t)) = idx).
  { rewrite (map_ext_in _ env); [rewrite <- Li; unfold env; now apply map_nth_seq|]. intros a Ha. apply in_seq in Ha.
    assert (Ia : In a (L ++ M)) by (apply R; lia). destruct (NoDup_app_parts _ _ N) as (NL & NM & D).
    destruct (in_dec Nat.eq_dec a M) as [C|C].
    - rewrite bind_in by (assumption || now rewrite map_length). destruct (index_of_lt a M C) as [X1 X2]. rewrite (nth_map_in _ _ _ _ 0) by exact X1. now rewrite X2.
    - rewrite bind_out by exact C. assert (C' : In a L) by (apply in_app_or in Ia; tauto).
      rewrite bind_in by (assumption || now rewrite map_length). destruct (index_of_lt a L C') as [X1 X2]. rewrite (nth_map_in _ _ _ _ 0) by exact X1. now rewrite X2. }
  unfold moment_entry, entry in E. rewrite NV, EI in E. apply E; apply inside_valid; intros a Ha; apply I, in_or_app; tauto.
Qed.

(* C120: raw to central and back, and the other way around, gives the array again *)
Theorem moments_type_round_trip nmax mom_axes M L t to to' order order' : moment_axes mom_axes M L t -> convertible nmax t M ->
  (to = "central" <-> to' <> "central")%string ->
  rbind (moments_type_nd nmax to mom_axes false order t) (moments_type_nd nmax to' mom_axes false order') = Ok t.
Proof.
  intros H C X. destruct (moments_type_entries nmax mom_axes M L t H to order C) as (u & Eu & Hu & Su & Gu). rewrite Eu. cbn [rbind].
  assert (ES : shape_of u = shape_of t) by (unfold shape_of; now rewrite Su).
  assert (C' : convertible nmax u M) by (unfold convertible; rewrite ES; exact C).
  destruct (moments_type_entries nmax mom_axes M L u Hu to' order' C') as (v & Ev & Hv & Sv & Gv). rewrite Ev. f_equal. rewrite ES in Gv.
  destruct (convertible_shape nmax t M C) as (C1 & C2).
  apply (moment_entries_ext mom_axes M L t v H); [apply Hv|congruence|]. intros p m Vp Vm. rewrite Gv by assumption.
  rewrite <- converted_spec. rewrite (converted_ext nmax to' (map (shape_of t) M) _ (converted to (moment_entry t M L p))) by
    (assumption || (intros m' V'; rewrite converted_spec; now apply Gu)).
  now apply (converted_back nmax to to' (map (shape_of t) M)).
Qed.

(* ---- moments and comoments -------------------------------------------------------------- *)

Lemma firstn_lead {X} (p m : list X) k : length p = k -> firstn k (p ++ m) = p.
Proof. intros <-. rewrite firstn_app, firstn_all, Nat.sub_diag. apply app_nil_r. Qed.
Lemma nth_lead {X} (d : X) p m k i : length p = k -> nth (k + i) (p ++ m) d = nth i m d.
Proof. intros <-. rewrite app_nth2 by lia. f_equal. lia. Qed.
Lemma moved_always mom_axes M L t : moment_axes mom_axes M L t -> exists u, np_moveaxis mom_axes (axes_last (length mom_axes)) t = Ok u /\
  tensor_ok u /\ tshape u = map (shape_of t) L ++ map (shape_of t) M /\ tndim u = length L + length M /\
  forall p m, valid (map (shape_of t) L) p -> valid (map (shape_of t) M) m -> tget u (p ++ m) = moment_entry t M L p m.
Proof.
  intros H. destruct (moved_view_always mom_axes M L t H) as (u & Eu & Vu). exists u. split; [exact Eu|].
  destruct (view_entries mom_axes M L t H u Vu) as (A & B & C). split; [exact A|]. split; [exact B|]. split; [|exact C].
  unfold tndim. now rewrite B, app_length, !map_length.
Qed.

(* C121: entry (i, j) of the comoments is the moment of order i + j *)
Theorem moments_to_comoments_entries mom mom_axis a L t m0 m1 : moment_axes [mom_axis] [a] L t ->
  resolved mom (Z.of_nat (shape_of t a) - 1) (Z.of_nat m0, Z.of_nat m1) ->
  exists out, moments_to_comoments_nd [fst mom; snd mom] mom_axis t = Ok out /\ tensor_ok out /\
    tshape out = map (shape_of t) L ++ [S m0; S m1] /\
    forall p i j, valid (map (shape_of t) L) p -> i <= m0 -> j <= m1 -> tget out (p ++ [i; j]) = moment_entry t [a] L p [i + j].
Proof.
  intros H R. destruct (moved_always _ _ _ _ H) as (u & Eu & Tu & Su & Nu & Gu). cbn [axes_last length] in Eu.
  unfold moments_to_comoments_nd. change (axes_last 1) with [(-1)%Z] in Eu. rewrite Eu. cbn [rbind].
  assert (El : last (tshape u) 0 = shape_of t a) by (rewrite Su; cbn [map]; apply last_last). rewrite El.
  destruct mom as [z0 z1]. assert (R' := R). apply comoment_orders_resolved in R. cbn [fst snd]. rewrite R. cbn [rbind fst snd].
  rewrite !Nat2Z.id, !Nat.add_1_r.
  assert (LL : firstn (tndim u - 1) (tshape u) = map (shape_of t) L).
  { rewrite Su, Nu. cbn [length map]. apply firstn_lead. rewrite map_length. lia. }
  rewrite LL. eexists. split; [reflexivity|]. split; [apply tabulate_ok|]. split; [reflexivity|].
  intros p i j Vp Hi Hj. assert (Lp := valid_length _ _ Vp). rewrite map_length in *.
  rewrite tget_tabulate by (apply Forall2_app; [exact Vp|constructor; [lia|constructor; [lia|constructor]]]).
  rewrite firstn_lead by exact Lp.
  replace (nth (length L) (p ++ [i; j]) 0) with i by (rewrite <- Lp; rewrite app_nth2, Nat.sub_diag by lia; reflexivity).
  replace (nth (S (length L)) (p ++ [i; j]) 0) with j by (replace (S (length L)) with (length L + 1) by lia; now rewrite nth_lead by exact Lp).
  apply Gu; [exact Vp|]. cbn [map]. constructor; [|constructor]. destruct R' as (_ & _ & _ & X). cbn [fst snd] in X. lia.
Qed.
(* orders that do not fit are refused *)
Theorem moments_to_comoments_refused mom mom_axis a L t : moment_axes [mom_axis] [a] L t ->
  (length mom <> 2 \/ exists m0 m1, mom = [m0; m1] /\ forall out, ~ resolved (m0, m1) (Z.of_nat (shape_of t a) - 1) out) ->
  moments_to_comoments_nd mom mom_axis t = Raise EValue.
Proof.
  intros H R. destruct (moved_always _ _ _ _ H) as (u & Eu & Tu & Su & Nu & Gu). unfold moments_to_comoments_nd.
  change (axes_last (length [mom_axis])) with [(-1)%Z] in Eu. rewrite Eu. cbn [rbind].
  assert (El : last (tshape u) 0 = shape_of t a) by (rewrite Su; cbn [map]; apply last_last). rewrite El.
  rewrite comoment_orders_rejected; [reflexivity|]. intros out E. destruct R as [R|(m0 & m1 & -> & R)].
  - destruct mom as [|x [|y [|? ?]]]; cbn in R; try lia; discriminate.
  - apply comoment_orders_resolved in E. exact (R out E).
Qed.

(* the first entry of the comoments with i + j = k *)
Lemma sources_find l n k : (forall ij, In ij l -> nth 0 ij 0 + nth 1 ij 0 < n) -> forall src, length src = n -> nth k src None = None -> k < n ->
  nth k (fold_left (fun src ij => let q := nth 0 ij 0 + nth 1 ij 0 in match nth q src None with Some _ => src | None => upd src q (Some ij) end) l src) None
  = find (fun ij => Nat.eqb (nth 0 ij 0 + nth 1 ij 0) k) l.
Proof.
  cbn zeta.
  assert (K : forall l x src, nth k src None = Some x ->
    nth k (fold_left (fun src (ij : list nat) => match nth (nth 0 ij 0 + nth 1 ij 0) src None with Some _ => src | None => upd src (nth 0 ij 0 + nth 1 ij 0) (Some ij) end) l src) None = Some x).
  { clear. induction l as [|ij l IH]; intros x src E; [exact E|]. cbn [fold_left]. destruct (nth (nth 0 ij 0 + nth 1 ij 0) src None) as [y|] eqn:F; [now apply IH|].
    apply IH. rewrite upd_nth. destruct (Nat.eqb_spec (nth 0 ij 0 + nth 1 ij 0) k) as [Q|Q]; [congruence|]. exact E. }
  induction l as [|ij l IH]; intros Hl src Ls N Hk; [exact N|]. cbn [fold_left find].
  assert (Hl' : forall ij, In ij l -> nth 0 ij 0 + nth 1 ij 0 < n) by (intros; apply Hl; now right). specialize (Hl ij (or_introl eq_refl)).
  destruct (Nat.eqb_spec (nth 0 ij 0 + nth 1 ij 0) k) as [Q|Q].
  - rewrite Q, N. apply K. rewrite upd_nth, Nat.eqb_refl. destruct (Nat.ltb_spec k (length src)); [reflexivity|lia].
  - destruct (nth (nth 0 ij 0 + nth 1 ij 0) src None) as [y|] eqn:F; [now apply IH|]. apply IH; [exact Hl'|now rewrite upd_length| |exact Hk].
    rewrite upd_nth. destruct (Nat.eqb_spec (nth 0 ij 0 + nth 1 ij 0) k); [tauto|exact N].
Qed.
Lemma find_app {X} (f : X -> bool) l l' : find f (l ++ l') = match find f l with Some x => Some x | None => find f l' end.
Proof. induction l as [|x l IH]; [reflexivity|]. cbn [app find]. now destruct (f x). Qed.
Lemma find_row a n1 k : find (fun ij => Nat.eqb (nth 0 ij 0 + nth 1 ij 0) k) (map (fun j => [a; j]) (seq 0 n1)) =
  if (Nat.leb a k && Nat.ltb (k - a) n1)%bool then Some [a; k - a] else None.
Proof.
  enough (X : forall b, find (fun ij => Nat.eqb (nth 0 ij 0 + nth 1 ij 0) k) (map (fun j => [a; j]) (seq b n1)) =
    if (Nat.leb (a + b) k && Nat.ltb (k - a) (b + n1))%bool then Some [a; k - a] else None).
  { rewrite X. now rewrite Nat.add_0_r. }
  induction n1 as [|n1 IH]; intros b; cbn [seq map find].
  - destruct (Nat.leb_spec (a + b) k), (Nat.ltb_spec (k - a) (b + 0)); try reflexivity. cbn. lia.
  - cbn [nth]. destruct (Nat.eqb_spec (a + b) k) as [E|E].
    + destruct (Nat.leb_spec (a + b) k), (Nat.ltb_spec (k - a) (b + S n1)); try lia. cbn [andb]. do 3 f_equal. lia.
    + rewrite IH. destruct (Nat.leb_spec (a + S b) k), (Nat.ltb_spec (k - a) (S b + n1)), (Nat.leb_spec (a + b) k), (Nat.ltb_spec (k - a) (b + S n1)); cbn [andb]; try reflexivity; lia.
Qed.
Lemma find_rows n0 n1 k : 0 < n0 -> 0 < n1 -> k < n0 + n1 - 1 ->
  find (fun ij => Nat.eqb (nth 0 ij 0 + nth 1 ij 0) k) (all_idx [n0; n1]) = Some [k - (n1 - 1); k - (k - (n1 - 1))].
Proof.
  intros H0 H1 Hk. assert (EA : all_idx [n0; n1] = flat_map (fun i => map (fun j => [i; j]) (seq 0 n1)) (seq 0 n0)).
  { cbn [all_idx]. apply flat_map_ext. intros i. clear. generalize (seq 0 n1). induction l as [|x l IH]; [reflexivity|]. cbn [flat_map map app]. cbn [flat_map map app] in IH. rewrite <- IH. reflexivity. }
  rewrite EA. enough (X : forall a, a <= k - (n1 - 1) -> k - (n1 - 1) < a + n0 ->
    find (fun ij => Nat.eqb (nth 0 ij 0 + nth 1 ij 0) k) (flat_map (fun i => map (fun j => [i; j]) (seq 0 n1)) (seq a n0)) = Some [k - (n1 - 1); k - (k - (n1 - 1))]) by (apply X; lia).
  clear EA Hk H0. induction n0 as [|n0 IH]; intros a Ha Hb; [lia|]. cbn [seq flat_map]. rewrite find_app, find_row.
  destruct (Nat.leb_spec a k) as [A|A]; [|lia]. destruct (Nat.ltb_spec (k - a) n1) as [B|B]; cbn [andb].
  - replace a with (k - (n1 - 1)) by lia. reflexivity.
  - apply IH; lia.
Qed.
Lemma comoment_source n0 n1 k : 0 < n0 -> 0 < n1 -> k < n0 + n1 - 1 ->
  nth k (comoment_sources n0 n1) None = Some [k - (n1 - 1); k - (k - (n1 - 1))].
Proof.
  intros H0 H1 Hk. unfold comoment_sources. rewrite (sources_find _ (n0 + n1 - 1)).
  - now apply find_rows.
  - intros ij Hi. apply all_idx_valid in Hi. inversion Hi as [|? i ? l Ai Vi]; subst. inversion Vi as [|? j ? l' Aj Vj]; subst. cbn [nth]. lia.
  - apply repeat_length.
  - apply nth_repeat.
  - exact Hk.
Qed.

(* C121: entry k of the moments is the comoment (i, j) with i + j = k and the smallest i *)
Theorem comoments_to_moments_entries junk mom_axes a b L t : moment_axes mom_axes [a; b] L t -> 0 < shape_of t a -> 0 < shape_of t b ->
  exists out, comoments_to_moments_nd junk mom_axes t = Ok out /\ tensor_ok out /\
    tshape out = map (shape_of t) L ++ [shape_of t a + shape_of t b - 1] /\
    forall p k, valid (map (shape_of t) L) p -> k < shape_of t a + shape_of t b - 1 ->
      exists i j, i + j = k /\ i < shape_of t a /\ j < shape_of t b /\ (forall i' j', i' + j' = k -> j' < shape_of t b -> i <= i') /\
        tget out (p ++ [k]) = moment_entry t [a; b] L p [i; j].
Proof.
  intros H Ha Hb. destruct (moved_always _ _ _ _ H) as (u & Eu & Tu & Su & Nu & Gu). unfold comoments_to_moments_nd.
  rewrite (ax_lenM _ _ _ _ H) in Eu. change (axes_last (length [a; b])) with [-2; -1]%Z in Eu. rewrite Eu. cbn [rbind].
  cbn [length] in Nu. replace (tndim u - 2) with (length L) by lia.
  assert (LL : firstn (length L) (tshape u) = map (shape_of t) L) by (rewrite Su; apply firstn_lead; now rewrite map_length).
  assert (E0 : nth (length L) (tshape u) 0 = shape_of t a) by (rewrite Su; replace (length L) with (length L + 0) by lia; now rewrite nth_lead by (now rewrite map_length)).
  assert (E1 : nth (S (length L)) (tshape u) 0 = shape_of t b) by (rewrite Su; replace (S (length L)) with (length L + 1) by lia; now rewrite nth_lead by (now rewrite map_length)).
  rewrite LL, E0, E1. destruct (Nat.eqb_spec (shape_of t a + shape_of t b) 0) as [|_]; [lia|].
  eexists. split; [reflexivity|]. split; [apply tabulate_ok|]. split; [reflexivity|]. intros p k Vp Hk.
  assert (Lp := valid_length _ _ Vp). rewrite map_length in Lp.
  exists (k - (shape_of t b - 1)), (k - (k - (shape_of t b - 1))). split; [lia|]. split; [lia|]. split; [lia|]. split; [lia|].
  rewrite tget_tabulate by (apply Forall2_app; [exact Vp|constructor; [exact Hk|constructor]]).
  replace (nth (length L) (p ++ [k]) 0) with k by (replace (length L) with (length L + 0) by lia; now rewrite nth_lead by exact Lp).
  rewrite (comoment_source _ _ k Ha Hb Hk), firstn_lead by exact Lp.
  apply Gu; [exact Vp|]. cbn [map]. constructor; [lia|constructor; [lia|constructor]].
Qed.

(* both axes of moments empty: refused *)
Theorem comoments_to_moments_refused junk mom_axes a b L t : moment_axes mom_axes [a; b] L t -> shape_of t a = 0 -> shape_of t b = 0 ->
  comoments_to_moments_nd junk mom_axes t = Raise EValue.
Proof.
  intros H Ha Hb. destruct (moved_always _ _ _ _ H) as (u & Eu & Tu & Su & Nu & Gu). unfold comoments_to_moments_nd.
  rewrite (ax_lenM _ _ _ _ H) in Eu. change (axes_last (length [a; b])) with [-2; -1]%Z in Eu. rewrite Eu. cbn [rbind].
  cbn [length] in Nu. replace (tndim u - 2) with (length L) by lia.
  assert (E0 : nth (length L) (tshape u) 0 = shape_of t a) by (rewrite Su; replace (length L) with (length L + 0) by lia; now rewrite nth_lead by (now rewrite map_length)).
  assert (E1 : nth (S (length L)) (tshape u) 0 = shape_of t b) by (rewrite Su; replace (S (length L)) with (length L + 1) by lia; now rewrite nth_lead by (now rewrite map_length)).
  rewrite E0, E1, Ha, Hb. reflexivity.
Qed.

(* C121: the moments come back from the comoments *)
Theorem comoments_round_trip junk mom mom_axis a L t m0 m1 : moment_axes [mom_axis] [a] L t ->
  resolved mom (Z.of_nat (shape_of t a) - 1) (Z.of_nat m0, Z.of_nat m1) ->
  exists out, rbind (moments_to_comoments_nd [fst mom; snd mom] mom_axis t) (comoments_to_moments_nd junk [-2; -1]%Z) = Ok out /\ tensor_ok out /\
    tshape out = map (shape_of t) L ++ [S (m0 + m1)] /\
    forall p k, valid (map (shape_of t) L) p -> k <= m0 + m1 -> tget out (p ++ [k]) = moment_entry t [a] L p [k].
Proof.
  intros H R. destruct (moments_to_comoments_entries mom mom_axis a L t m0 m1 H R) as (u & Eu & Tu & Su & Gu). rewrite Eu. cbn [rbind].
  set (s := map (shape_of t) L) in *. pose proof (last_moment_axes s [S m0; S m1] u Tu Su) as Hu. destruct (last_shapes s [S m0; S m1] u Su) as [S1 S2].
  cbn [length seq map axes_last] in Hu, S2. change (axes_last 2) with [-2; -1]%Z in Hu. injection S2 as A0 A1.
  destruct (comoments_to_moments_entries junk [-2; -1]%Z (length s) (S (length s)) (seq 0 (length s)) u Hu ltac:(lia) ltac:(lia)) as (v & Ev & Tv & Sv & Gv).
  exists v. split; [exact Ev|]. split; [exact Tv|]. rewrite S1, A0, A1 in Sv. split; [rewrite Sv; do 2 f_equal; lia|].
  intros p k Vp Hk. rewrite S1, A0, A1 in Gv. destruct (Gv p k Vp ltac:(lia)) as (i & j & Eij & Hi & Hj & _ & G). rewrite G.
  pose proof (last_moment_entry s [S m0; S m1] u p [i; j] Su (valid_length _ _ Vp) eq_refl) as X. cbn [length seq] in X. rewrite X.
  rewrite Gu by (assumption || lia). now rewrite Eij.
Qed.
(* with an empty axis of moments, the result is whatever was in memory *)
Theorem comoments_of_nothing_refuted : exists mom_axes t out out', tensor_ok t /\
  comoments_to_moments_nd (fun _ => 0%Qc) mom_axes t = Ok out /\ comoments_to_moments_nd (fun _ => 1%Qc) mom_axes t = Ok out' /\ out <> out'.
Proof.
  exists [0; 1]%Z, (Tensor [0; 3] []). eexists. eexists. split; [reflexivity|]. split; [vm_compute; reflexivity|]. split; [vm_compute; reflexivity|].
  intros E. injection E. discriminate.
Qed.
