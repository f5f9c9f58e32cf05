(* Consequences of the push laws for the kernels of ModelKernels. *)
From Verif Require Import Base BaseLemmas ModelKernels Laws.
From Coq Require Import Permutation.
Local Open Scope Qc_scope.

(* running totals of nonzero weights never vanish *)
Fixpoint nv (w0 : Qc) (ws : list Qc) : Prop :=
  match ws with
  | [] => True
  | w :: t => (w <> 0 -> w0 + w <> 0) /\ nv (w0 + w) t
  end.

Lemma nv_nonneg ws : forall w0, 0 <= w0 -> Forall (fun w => 0 <= w) ws -> nv w0 ws.
Proof.
  induction ws as [|w t IH]; intros w0 H0 H; cbn; [exact I|].
  inversion H; subst. split.
  - intros Hw. apply Qc_lt_neq. apply Qc_add_pos_r; [exact H0|].
    destruct (Qc_le_lt_eq w); auto. contradiction.
  - apply IH; [now apply Qc_add_nonneg|assumption].
Qed.

Lemma nv_total0 ws : forall w0, nv w0 ws -> w0 + suml (fun w => w) ws = 0 ->
  w0 = 0 /\ Forall (fun w => w = 0) ws.
Proof.
  induction ws as [|w t IH]; intros w0 H E.
  - rewrite suml_nil, Qcplus_0_r in E. auto.
  - rewrite suml_cons, Qcplus_assoc in E. cbn in H. destruct H as [Hw Ht].
    destruct (IH _ Ht E) as [E1 F].
    destruct (Qc_eq_dec w 0) as [->|N]; [|exfalso; now apply Hw].
    split; [now rewrite Qcplus_0_r in E1|]. now constructor.
Qed.

Lemma nv_app a b w0 : nv w0 (a ++ b) <-> nv w0 a /\ nv (w0 + suml (fun w => w) a) b.
Proof.
  revert w0. induction a as [|w t IH]; intros w0; cbn [app nv].
  - rewrite suml_nil, Qcplus_0_r. intuition.
  - rewrite IH, suml_cons, Qcplus_assoc. intuition.
Qed.

Section Gen.
  Context {A V I : Type} {K : pusher A V} (L : laws K I).
  Notation wf := (l_wf L).
  Notation dom := (l_dom L).
  Notation raw := (l_raw L).
  Notation wt := (p_wt K).
  Notation zero := (p_zero K).
  Notation push := (p_push_data K).
  Notation pushs := (p_push_data_scale K).
  Notation setwt := (p_setwt K).

  Definition phi (a : A) (i : I) : Qc := wt a * raw a i.
  Definition canonical (a : A) : Prop := wf a /\ (wt a = 0 -> a = zero).
  Definition Pos (d : A) : Prop := wf d /\ 0 <= wt d.
  Definition sumphi (l : list A) (i : I) : Qc := suml (fun d => phi d i) l.
  Definition sumwt (l : list A) : Qc := suml (fun d => wt d) l.

  Lemma phi_i0 a : phi a (l_i0 L) = wt a.
  Proof. unfold phi. rewrite l_raw_i0. ring. Qed.

  Lemma phi_wt0 a i : wt a = 0 -> phi a i = 0.
  Proof. intros H. unfold phi. rewrite H. ring. Qed.

  Lemma sumphi_i0 l : sumphi l (l_i0 L) = sumwt l.
  Proof. unfold sumphi, sumwt. apply suml_ext. intros. apply phi_i0. Qed.

  Lemma phi_inj a b : wf a -> wf b -> wt a <> 0 ->
    (forall i, dom i -> phi a i = phi b i) -> a = b.
  Proof.
    intros Ha Hb H0 H.
    assert (E : wt a = wt b). { rewrite <- !phi_i0. apply H, l_i0_dom. }
    apply (l_inj _ _ L); auto. intros i Hi. specialize (H i Hi). unfold phi in H.
    rewrite <- E in H. now apply Qc_mul_cancel_l in H.
  Qed.

  Lemma phi_inj_can a b : canonical a -> canonical b ->
    (forall i, dom i -> phi a i = phi b i) -> a = b.
  Proof.
    intros [Ha Ca] [Hb Cb] H.
    assert (E : wt a = wt b). { rewrite <- !phi_i0. apply H, l_i0_dom. }
    destruct (Qc_eq_dec (wt a) 0) as [Z|N].
    - rewrite (Ca Z), Cb; [reflexivity|congruence].
    - now apply phi_inj.
  Qed.

  Lemma canonical_zero : canonical zero.
  Proof. split; [apply l_wf_zero|auto]. Qed.

  Lemma canonical_nz a : wf a -> wt a <> 0 -> canonical a.
  Proof. intros H N. split; [exact H|contradiction]. Qed.

  Lemma phi_zero i : phi zero i = 0.
  Proof. apply phi_wt0, (l_wt_zero _ _ L). Qed.

  (* ---- one push ---------------------------------------------------------- *)

  Lemma push_ok d o : wf d -> wf o -> (wt d <> 0 -> wt o + wt d <> 0) ->
    exists r, push d o = Some r /\ wf r /\ wt r = wt o + wt d /\
      (forall i, dom i -> phi r i = phi o i + phi d i) /\ (canonical o -> canonical r).
  Proof.
    intros Hd Ho H. destruct (Qc_eq_dec (wt d) 0) as [Z|N].
    - exists o. split; [now apply (l_push_zero _ _ L)|]. split; [exact Ho|].
      split; [rewrite Z; ring|]. split; [|auto]. intros i Hi. rewrite (phi_wt0 d i Z). ring.
    - destruct (l_push_some _ _ L d o Hd Ho N (H N)) as (r & E & W & T & P).
      exists r. split; [exact E|]. split; [exact W|]. split; [exact T|]. split; [exact P|].
      intros _. apply canonical_nz; [exact W|]. rewrite T. auto.
  Qed.

  Lemma push_some_iff d o r : wf d -> wf o -> push d o = Some r ->
    (wt d <> 0 -> wt o + wt d <> 0).
  Proof.
    intros Hd Ho E N Z. rewrite (l_push_none _ _ L d o Hd Ho N Z) in E. discriminate.
  Qed.

  Lemma push_phi d o r : wf d -> wf o -> push d o = Some r ->
    wf r /\ (forall i, dom i -> phi r i = phi o i + phi d i) /\ wt r = wt o + wt d /\
    (canonical o -> canonical r).
  Proof.
    intros Hd Ho E. pose proof (push_some_iff d o r Hd Ho E) as H.
    destruct (push_ok d o Hd Ho H) as (r' & E' & W & T & P & C).
    rewrite E in E'. injection E' as <-. auto.
  Qed.

  (* ---- sequences of pushes ------------------------------------------------ *)

  Lemma reduce_into_ok data : forall o, Forall wf data -> wf o -> nv (wt o) (map wt data) ->
    exists r, reduce_data_into K data o = Some r /\ wf r /\ wt r = wt o + sumwt data /\
      (forall i, dom i -> phi r i = phi o i + sumphi data i) /\ (canonical o -> canonical r).
  Proof.
    induction data as [|d t IH]; intros o Hw Ho Hn.
    - exists o. split; [reflexivity|]. split; [exact Ho|]. split; [unfold sumwt; rewrite suml_nil; ring|].
      split; [|auto]. intros. unfold sumphi. rewrite suml_nil. ring.
    - inversion Hw as [|? ? Hd Ht]; subst. cbn in Hn. destruct Hn as [H0 Hn].
      destruct (push_ok d o Hd Ho H0) as (r1 & E1 & W1 & T1 & P1 & C1).
      unfold reduce_data_into in *. cbn [foldM]. rewrite E1. cbn [obind].
      destruct (IH r1 Ht W1) as (r & E & W & T & P & C); [now rewrite T1|].
      exists r. split; [exact E|]. split; [exact W|].
      split; [rewrite T, T1; unfold sumwt; rewrite suml_cons; ring|].
      split; [|auto]. intros i Hi. rewrite P, P1 by exact Hi. unfold sumphi. rewrite suml_cons. ring.
  Qed.

  Lemma reduce_into_none data : forall o, Forall wf data -> wf o -> ~ nv (wt o) (map wt data) ->
    reduce_data_into K data o = None.
  Proof.
    induction data as [|d t IH]; intros o Hw Ho Hn.
    - exfalso. apply Hn. exact Logic.I.
    - inversion Hw as [|? ? Hd Ht]; subst. unfold reduce_data_into in *. cbn [foldM].
      destruct (push d o) as [r1|] eqn:E1; cbn [obind]; [|reflexivity].
      destruct (push_phi d o r1 Hd Ho E1) as (W1 & _ & T1 & _).
      apply IH; auto. intros Hn'. apply Hn. cbn. split.
      + now apply (push_some_iff d o r1).
      + now rewrite <- T1.
  Qed.

  Lemma reduce_ok data : Forall wf data -> nv 0 (map wt data) ->
    exists r, reduce_data K data = Some r /\ canonical r /\ wt r = sumwt data /\
      (forall i, dom i -> phi r i = sumphi data i).
  Proof.
    intros Hw Hn. destruct (reduce_into_ok data zero Hw) as (r & E & W & T & P & C).
    - apply l_wf_zero.
    - now rewrite (l_wt_zero _ _ L).
    - exists r. split; [exact E|]. split; [apply C, canonical_zero|].
      split; [rewrite T, (l_wt_zero _ _ L); ring|].
      intros i Hi. rewrite P, phi_zero by exact Hi. ring.
  Qed.

  Lemma Pos_wf data : Forall Pos data -> Forall wf data.
  Proof. apply Forall_impl. intros a [H _]. exact H. Qed.
  Lemma Pos_nv data : Forall Pos data -> nv 0 (map wt data).
  Proof.
    intros H. apply nv_nonneg; [apply Qcle_refl|]. apply Forall_map.
    revert H. apply Forall_impl. intros a [_ H]. exact H.
  Qed.
  Lemma Pos_sumwt data : Forall Pos data -> 0 <= sumwt data.
  Proof.
    intros H. apply suml_nonneg. intros a Ha. rewrite Forall_forall in H. apply H, Ha.
  Qed.
  Lemma Pos_sumwt0 data : Forall Pos data -> sumwt data = 0 -> Forall (fun d => wt d = 0) data.
  Proof.
    intros H E.
    destruct (nv_total0 (map wt data) 0) as [_ F].
    - now apply Pos_nv.
    - rewrite suml_map. unfold sumwt in E. rewrite E. ring.
    - now rewrite Forall_map in F.
  Qed.

  Lemma reduce_pos data : Forall Pos data ->
    exists r, reduce_data K data = Some r /\ canonical r /\ wt r = sumwt data /\
      (forall i, dom i -> phi r i = sumphi data i).
  Proof. intros H. apply reduce_ok; [now apply Pos_wf|now apply Pos_nv]. Qed.

  (* an array with the right power sums is the reduction *)
  Lemma reduce_unique data a : Forall wf data -> nv 0 (map wt data) -> canonical a ->
    (forall i, dom i -> phi a i = sumphi data i) -> reduce_data K data = Some a.
  Proof.
    intros Hw Hn Ca Ha. destruct (reduce_ok data Hw Hn) as (r & E & C & T & P).
    rewrite E. f_equal. apply phi_inj_can; auto. intros i Hi. now rewrite P, Ha.
  Qed.

  Lemma reduce_same_sum d1 d2 : Forall wf d1 -> Forall wf d2 -> nv 0 (map wt d1) -> nv 0 (map wt d2) ->
    (forall i, dom i -> sumphi d1 i = sumphi d2 i) -> reduce_data K d1 = reduce_data K d2.
  Proof.
    intros W1 W2 N1 N2 H. destruct (reduce_ok d2 W2 N2) as (r & E & C & T & P).
    rewrite E. apply reduce_unique; auto. intros i Hi. rewrite P, H by exact Hi. reflexivity.
  Qed.

  Lemma reduce_perm d1 d2 : Permutation d1 d2 -> Forall Pos d1 -> reduce_data K d1 = reduce_data K d2.
  Proof.
    intros H P1. assert (P2 : Forall Pos d2) by (now rewrite <- H).
    apply reduce_same_sum; auto using Pos_wf, Pos_nv. intros. now apply suml_perm.
  Qed.

  Lemma reduce_app d1 d2 : reduce_data K (d1 ++ d2) = obind (reduce_data K d1) (reduce_data_into K d2).
  Proof. unfold reduce_data, reduce_data_into. apply foldM_app. Qed.

  Lemma Forall_concat_inv {B} (P : B -> Prop) ll : Forall P (concat ll) -> Forall (Forall P) ll.
  Proof.
    induction ll as [|l ll IH]; cbn; intros H; constructor.
    - apply Forall_app in H. apply H.
    - apply IH. apply Forall_app in H. apply H.
  Qed.

  (* merging chunk results *)
  Lemma reduce_concat (chunks : list (list A)) : Forall Pos (concat chunks) ->
    exists rs, mapM (reduce_data K) chunks = Some rs /\ Forall Pos rs /\ Forall canonical rs /\
      (forall i, dom i -> sumphi rs i = sumphi (concat chunks) i) /\
      reduce_data K rs = reduce_data K (concat chunks).
  Proof.
    intros H.
    assert (M : exists rs, mapM (reduce_data K) chunks = Some rs /\ Forall Pos rs /\ Forall canonical rs /\
              (forall i, dom i -> sumphi rs i = sumphi (concat chunks) i)).
    { apply Forall_concat_inv in H. induction H as [|c cs Hc Hcs IH].
      - exists []. cbn. repeat split; auto.
      - destruct IH as (rs & E & P & C & S). destruct (reduce_pos c Hc) as (r & Er & Cr & Tr & Pr).
        exists (r :: rs). cbn [mapM]. rewrite Er. cbn [obind]. rewrite E. cbn [obind].
        split; [reflexivity|]. split; [constructor; [|exact P]|].
        { split; [apply Cr|]. rewrite Tr. now apply Pos_sumwt. }
        split; [now constructor|]. intros i Hi. unfold sumphi in *. cbn [concat]. rewrite suml_cons, suml_app, S by exact Hi.
        now rewrite Pr. }
    destruct M as (rs & E & P & C & S). exists rs. do 4 (split; [assumption|]).
    apply reduce_same_sum; auto using Pos_wf, Pos_nv.
  Qed.

  (* ---- samples -------------------------------------------------------------- *)

  Definition pt (s : V * Qc) : A := l_point L (fst s) (snd s).

  Lemma pt_wf s : wf (pt s).
  Proof. apply l_point_wf. Qed.
  Lemma pt_wt s : wt (pt s) = snd s.
  Proof. apply l_point_wt. Qed.
  Lemma pt_phi s i : phi (pt s) i = snd s * l_pow L (fst s) i.
  Proof. unfold phi. rewrite pt_wt. f_equal. apply l_point_raw. Qed.
  Lemma pts_wf xw : Forall wf (map pt xw).
  Proof. apply Forall_map, Forall_forall. intros. apply pt_wf. Qed.
  Lemma pts_wts xw : map wt (map pt xw) = map snd xw.
  Proof. rewrite map_map. apply map_ext. apply pt_wt. Qed.
  Lemma pts_sumphi xw i : sumphi (map pt xw) i = suml (fun s => snd s * l_pow L (fst s) i) xw.
  Proof. unfold sumphi. rewrite suml_map. apply suml_ext. intros. apply pt_phi. Qed.
  Lemma pts_Pos xw : Forall (fun s => 0 <= snd s) xw -> Forall Pos (map pt xw).
  Proof.
    intros H. apply Forall_map. revert H. apply Forall_impl. intros s Hs. split; [apply pt_wf|].
    now rewrite pt_wt.
  Qed.

  Lemma foldM_ext {X Y} (f g : X -> Y -> option X) l : (forall x y, In y l -> f x y = g x y) ->
    forall x, foldM f l x = foldM g l x.
  Proof.
    induction l as [|y l IH]; intros H x; [reflexivity|]. cbn. rewrite H by now left.
    destruct (g x y); cbn; [|reflexivity]. apply IH. intros. apply H. now right.
  Qed.
  Lemma foldM_map {X Y Z} (f : X -> Y -> option X) (g : Z -> Y) l x :
    foldM f (map g l) x = foldM (fun x z => f x (g z)) l x.
  Proof. revert x. induction l as [|z l IH]; intros x; [reflexivity|]. cbn. destruct (f x (g z)); cbn; auto. Qed.

  (* vals_to_data then reduce_data is reduce_vals *)
  Lemma reduce_vals_points_into xw o : reduce_vals_into K xw o = reduce_data_into K (map pt xw) o.
  Proof.
    unfold reduce_vals_into, reduce_data_into. rewrite foldM_map. apply foldM_ext.
    intros. apply (l_val _ _ L).
  Qed.
  Lemma reduce_vals_points xw : reduce_vals K xw = reduce_data K (map pt xw).
  Proof. apply reduce_vals_points_into. Qed.

  (* ---- scaled rows ------------------------------------------------------------ *)

  Definition scaled (f : Qc) (d : A) : A := setwt (wt d * f) d.

  Lemma scaled_wf f d : wf d -> wf (scaled f d).
  Proof. apply l_wf_setwt. Qed.
  Lemma scaled_wt f d : wf d -> wt (scaled f d) = wt d * f.
  Proof. intros. now apply (l_wt_setwt _ _ L). Qed.
  Lemma scaled_phi f d i : wf d -> phi (scaled f d) i = f * phi d i.
  Proof.
    intros H. unfold phi. rewrite scaled_wt by exact H. unfold scaled. rewrite (l_raw_setwt _ _ L). ring.
  Qed.
  Lemma scaled_Pos f d : 0 <= f -> Pos d -> Pos (scaled f d).
  Proof.
    intros Hf [W P]. split; [now apply scaled_wf|]. rewrite scaled_wt by exact W. now apply Qc_mul_nonneg.
  Qed.
  Lemma scaled_0_push d o : wf d -> push (scaled 0 d) o = Some o.
  Proof. intros H. apply (l_push_zero _ _ L). rewrite scaled_wt by exact H. ring. Qed.
  Lemma scaled_1 d : wf d -> scaled 1 d = d.
  Proof. intros H. unfold scaled. rewrite Qcmult_1_r. now apply (l_setwt_id _ _ L). Qed.
  Lemma pushs_scaled d f o : wf d -> pushs d f o = push (scaled f d) o.
  Proof. apply (l_scale _ _ L). Qed.

  Lemma setwt_zero_wt0 d : wf d -> wt d = 0 -> setwt 0 d = d.
  Proof. intros W H. rewrite <- H. now apply (l_setwt_id _ _ L). Qed.

  (* ---- algebra of two accumulators -------------------------------------------- *)

  Lemma push_comm a b : canonical a -> canonical b -> (wt a <> 0 -> wt b <> 0 -> wt a + wt b <> 0) ->
    push a b = push b a.
  Proof.
    intros [Wa Ca] [Wb Cb] H.
    destruct (Qc_eq_dec (wt a) 0) as [Za|Na]; [|destruct (Qc_eq_dec (wt b) 0) as [Zb|Nb]].
    - rewrite (l_push_zero _ _ L a b Za). rewrite (Ca Za).
      destruct (Qc_eq_dec (wt b) 0) as [Zb|Nb].
      + rewrite (l_push_zero _ _ L b _ Zb), (Cb Zb). reflexivity.
      + destruct (push_ok b zero Wb (l_wf_zero _ _ L)) as (r & E & W & T & P & C).
        { intros _. rewrite (l_wt_zero _ _ L). now rewrite Qcplus_0_l. }
        rewrite E. f_equal. apply phi_inj; auto. intros i Hi. rewrite P, phi_zero by exact Hi. ring.
    - rewrite (l_push_zero _ _ L b a Zb). rewrite (Cb Zb).
      destruct (push_ok a zero Wa (l_wf_zero _ _ L)) as (r & E & W & T & P & C).
      { intros _. rewrite (l_wt_zero _ _ L). now rewrite Qcplus_0_l. }
      rewrite E. f_equal. symmetry. apply phi_inj; auto. intros i Hi. rewrite P, phi_zero by exact Hi. ring.
    - specialize (H Na Nb).
      destruct (push_ok a b Wa Wb) as (r & E & W & T & P & C).
      { intros _. now rewrite Qcplus_comm. }
      destruct (push_ok b a Wb Wa) as (r' & E' & W' & T' & P' & C').
      { intros _. exact H. }
      rewrite E, E'. f_equal. apply phi_inj; auto.
      + rewrite T. now rewrite Qcplus_comm.
      + intros i Hi. rewrite P, P' by exact Hi. ring.
  Qed.

  Lemma push_assoc a b c : canonical a -> canonical b -> canonical c ->
    0 <= wt a -> 0 <= wt b -> 0 <= wt c ->
    exists ab bc r, push b a = Some ab /\ push c b = Some bc /\
      push c ab = Some r /\ push bc a = Some r /\ canonical r.
  Proof.
    intros Ca Cb Cc Pa Pb Pc.
    assert (NZ : forall x y : Qc, 0 <= x -> 0 <= y -> y <> 0 -> x + y <> 0).
    { intros x y Hx Hy N. apply Qc_lt_neq, Qc_add_pos_r; [exact Hx|].
      destruct (Qc_le_lt_eq y Hy); [contradiction|assumption]. }
    destruct (push_ok b a (proj1 Cb) (proj1 Ca)) as (ab & E1 & W1 & T1 & P1 & C1); [auto|].
    destruct (push_ok c b (proj1 Cc) (proj1 Cb)) as (bc & E2 & W2 & T2 & P2 & C2); [auto|].
    destruct (push_ok c ab (proj1 Cc) W1) as (r & E3 & W3 & T3 & P3 & C3).
    { intros N. rewrite T1. apply NZ; auto. now apply Qc_add_nonneg. }
    destruct (push_ok bc a W2 (proj1 Ca)) as (r' & E4 & W4 & T4 & P4 & C4).
    { rewrite T2. intros N. apply NZ; auto. now apply Qc_add_nonneg. }
    exists ab, bc, r. split; [exact E1|]. split; [exact E2|]. split; [exact E3|].
    split; [|auto]. rewrite E4. f_equal. apply phi_inj_can; auto.
    intros i Hi. rewrite P4, P3, P1, P2 by exact Hi. ring.
  Qed.

  Lemma push_into_zero a : wf a -> wt a <> 0 -> push a zero = Some a.
  Proof.
    intros Wa N. destruct (push_ok a zero Wa (l_wf_zero _ _ L)) as (r & E & W & T & P & C).
    { intros _. now rewrite (l_wt_zero _ _ L), Qcplus_0_l. }
    rewrite E. f_equal. symmetry. apply phi_inj; auto. intros i Hi. rewrite P, phi_zero by exact Hi. ring.
  Qed.
  Lemma push_into_wt0 a o : wf a -> wf o -> wt a <> 0 -> wt o = 0 -> push a o = Some a.
  Proof.
    intros Wa Wo N Z. destruct (push_ok a o Wa Wo) as (r & E & W & T & P & C).
    { intros _. now rewrite Z, Qcplus_0_l. }
    rewrite E. f_equal. symmetry. apply phi_inj; auto. intros i Hi. rewrite P, (phi_wt0 o) by auto. ring.
  Qed.
  Lemma push_into_zero_can a : canonical a -> push a zero = Some a.
  Proof.
    intros [W C]. destruct (Qc_eq_dec (wt a) 0) as [Z|N].
    - rewrite (l_push_zero _ _ L a _ Z). now rewrite (C Z).
    - now apply push_into_zero.
  Qed.

  (* removal *)
  Lemma push_remove d o : wf d -> wf o -> (wt d <> 0 -> wt o <> wt d) ->
    exists r, pushs d (-(1)) o = Some r /\ wf r /\ wt r = wt o - wt d /\
      (forall i, dom i -> phi r i = phi o i - phi d i) /\ (canonical o -> canonical r).
  Proof.
    intros Hd Ho H. rewrite pushs_scaled by exact Hd.
    destruct (push_ok (scaled (-(1)) d) o) as (r & E & W & T & P & C).
    - now apply scaled_wf.
    - exact Ho.
    - rewrite scaled_wt by exact Hd. intros N Z. apply H.
      + intros Z'. apply N. rewrite Z'. ring.
      + replace (wt o) with (wt o + wt d * - (1) + wt d) by ring. rewrite Z. ring.
    - exists r. split; [exact E|]. split; [exact W|].
      split; [rewrite T, scaled_wt by exact Hd; ring|].
      split; [|exact C]. intros i Hi. rewrite P, scaled_phi by auto. ring.
  Qed.

  Lemma push_remove_none d o : wf d -> wf o -> wt d <> 0 -> wt o = wt d -> pushs d (-(1)) o = None.
  Proof.
    intros Hd Ho N E. rewrite pushs_scaled by exact Hd. apply (l_push_none _ _ L).
    - now apply scaled_wf.
    - exact Ho.
    - rewrite scaled_wt by exact Hd. intros Z. apply N.
      replace (wt d) with (- (wt d * - (1))) by ring. rewrite Z. ring.
    - rewrite scaled_wt by exact Hd. rewrite E. ring.
  Qed.

  Lemma sub_add a b r : wf a -> wf b -> wt a <> 0 -> push b a = Some r -> pushs b (-(1)) r = Some a.
  Proof.
    intros Ha Hb N E. destruct (push_phi b a r Hb Ha E) as (Wr & P & T & _).
    destruct (push_remove b r Hb Wr) as (r' & E' & W' & T' & P' & _).
    { intros _ Z. rewrite T in Z. apply N.
      replace (wt a) with (wt a + wt b - wt b) by ring. rewrite Z. ring. }
    rewrite E'. f_equal. symmetry. apply phi_inj; auto.
    intros i Hi. rewrite P', P by exact Hi. ring.
  Qed.

  (* ---- cumulative -------------------------------------------------------------- *)

  Lemma cumulative_from_ok rest : forall prev pre, Forall wf rest -> wf prev ->
    (forall i, dom i -> phi prev i = sumphi pre i) -> nv (wt prev) (map wt rest) ->
    Forall (fun w => 0 <= w) (map wt rest) -> 0 <= wt prev ->
    exists rows, cumulative_from K prev rest = Some rows /\ length rows = length rest /\
      forall j, (j < length rest)%nat ->
        wf (nth j rows zero) /\
        (forall i, dom i -> phi (nth j rows zero) i = sumphi (pre ++ firstn (S j) rest) i) /\
        (sumwt (pre ++ firstn (S j) rest) = 0 -> nth j rows zero = nth j rest zero).
  Proof.
    induction rest as [|d t IH]; intros prev pre Hw Hp Pp Hn Hpos H0.
    - exists []. cbn. repeat split; auto; lia.
    - inversion Hw as [|? ? Wd Wt]; subst. inversion Hpos as [|? ? Pd Pt]; subst.
      assert (NZ : wt prev <> 0 -> wt d + wt prev <> 0).
      { intros N. apply Qc_lt_neq, Qc_add_pos_r; [exact Pd|].
        destruct (Qc_le_lt_eq _ H0); [contradiction|assumption]. }
      destruct (push_ok prev d Hp Wd NZ) as (o & E & Wo & To & Po & Co).
      destruct (IH o (pre ++ [d]) Wt Wo) as (rows & Er & Lr & R).
      { intros i Hi. rewrite Po, Pp by exact Hi. unfold sumphi. rewrite suml_app, suml_cons, suml_nil. ring. }
      { rewrite To. rewrite Qcplus_comm. cbn in Hn. apply Hn. }
      { exact Pt. }
      { rewrite To. now apply Qc_add_nonneg. }
      exists (o :: rows). cbn [cumulative_from]. rewrite E. cbn [obind]. rewrite Er. cbn [obind].
      split; [reflexivity|]. split; [cbn; now rewrite Lr|].
      intros [|j] Hj.
      + cbn [nth firstn]. split; [exact Wo|]. split.
        * intros i Hi. rewrite Po, Pp by exact Hi. unfold sumphi. rewrite suml_app, suml_cons, suml_nil. ring.
        * intros Z. assert (Zp : wt prev = 0).
          { rewrite <- phi_i0, Pp by apply l_i0_dom. rewrite sumphi_i0.
            unfold sumwt in *. rewrite suml_app, suml_cons, suml_nil in Z.
            assert (S0 : 0 <= suml (fun d => wt d) pre).
            { fold (sumwt pre). rewrite <- sumphi_i0, <- Pp by apply l_i0_dom. now rewrite phi_i0. }
            destruct (Qc_le_lt_eq _ S0) as [Z0|Z0]; [exact Z0|].
            exfalso. apply (Qc_lt_neq _ (Qc_add_pos_l _ (wt d) Z0 Pd)). rewrite <- Z. ring. }
          rewrite (l_push_zero _ _ L prev d Zp) in E. now injection E as <-.
      + cbn in Hj. destruct (R j ltac:(lia)) as (W & P & Z). cbn [nth].
        replace (pre ++ firstn (S (S j)) (d :: t)) with ((pre ++ [d]) ++ firstn (S j) t).
        2:{ rewrite <- app_assoc. reflexivity. }
        auto.
  Qed.

  (* row j: the reduction of the prefix when it has weight, else the input row *)
  Lemma cumulative_ok data : Forall Pos data ->
    exists rows, cumulative K data = Some rows /\ length rows = length data /\
      forall j, (j < length data)%nat ->
        (sumwt (firstn (S j) data) <> 0 -> reduce_data K (firstn (S j) data) = Some (nth j rows zero)) /\
        (sumwt (firstn (S j) data) = 0 -> nth j rows zero = nth j data zero).
  Proof.
    intros H. destruct data as [|d t].
    - exists []. cbn. repeat split; auto; intros; lia.
    - inversion H as [|? ? [Wd Pd] Ht]; subst.
      destruct (cumulative_from_ok t d [d]) as (rows & E & Lr & R).
      + now apply Pos_wf.
      + exact Wd.
      + intros i Hi. unfold sumphi. rewrite suml_cons, suml_nil. ring.
      + apply nv_nonneg; [exact Pd|]. apply Forall_map. revert Ht. apply Forall_impl. now intros a [_ ?].
      + apply Forall_map. revert Ht. apply Forall_impl. now intros a [_ ?].
      + exact Pd.
      + exists (d :: rows). unfold cumulative. rewrite E. cbn [obind].
        split; [reflexivity|]. split; [cbn; now rewrite Lr|].
        intros [|j] Hj.
        * cbn [firstn nth]. split; [|auto]. intros N. unfold sumwt in N. rewrite suml_cons, suml_nil, Qcplus_0_r in N.
          unfold reduce_data, reduce_data_into. cbn [foldM]. now rewrite push_into_zero.
        * cbn in Hj. destruct (R j ltac:(lia)) as (W & P & Z). cbn [nth].
          change (firstn (S (S j)) (d :: t)) with ([d] ++ firstn (S j) t).
          split; [|exact Z]. intros N.
          assert (PF : Forall Pos ([d] ++ firstn (S j) t)).
          { apply Forall_app. split; [constructor; [split; assumption|constructor]|].
            apply Forall_forall. intros x Hx. rewrite Forall_forall in Ht. apply Ht.
            rewrite <- (firstn_skipn (S j) t). apply in_or_app. now left. }
          apply reduce_unique; auto using Pos_wf, Pos_nv.
          apply canonical_nz; [exact W|]. rewrite <- phi_i0, P by apply l_i0_dom. now rewrite sumphi_i0.
  Qed.

  (* exact guard of the inverse: a row of zero weight after a prefix with weight is not recovered *)
  Fixpoint inv_guard (w0 : Qc) (ws : list Qc) : Prop :=
    match ws with
    | [] => True
    | w :: t => (w0 = 0 \/ w <> 0) /\ inv_guard (w0 + w) t
    end.

  Lemma cumulative_inverse_from_ok rest : forall prev rows, Forall wf rest -> wf prev ->
    cumulative_from K prev rest = Some rows ->
    (inv_guard (wt prev) (map wt rest) -> cumulative_inverse_from K prev rows = Some rest) /\
    (~ inv_guard (wt prev) (map wt rest) -> cumulative_inverse_from K prev rows = None).
  Proof.
    induction rest as [|d t IH]; intros prev rows Hw Hp E.
    - cbn in E. injection E as <-. cbn. split; [reflexivity|intros H; exfalso; now apply H].
    - inversion Hw as [|? ? Wd Wt]; subst. cbn [cumulative_from] in E.
      destruct (push prev d) as [o|] eqn:Eo; cbn [obind] in E; [|discriminate].
      destruct (cumulative_from K o t) as [rs|] eqn:Et; cbn [obind] in E; [|discriminate].
      injection E as <-. destruct (push_phi prev d o Hp Wd Eo) as (Wo & Po & To & _).
      specialize (IH o rs Wt Wo Et).
      assert (TT : wt o = wt prev + wt d) by (rewrite To; ring). rewrite TT in IH.
      cbn [cumulative_inverse_from map inv_guard].
      destruct (Qc_eq_dec (wt prev) 0) as [Zp|Np].
      { assert (o = d). { rewrite (l_push_zero _ _ L prev d Zp) in Eo. congruence. } subst o.
        rewrite pushs_scaled by exact Hp. rewrite (l_push_zero _ _ L).
        2:{ rewrite scaled_wt by exact Hp. rewrite Zp. ring. }
        cbn [obind]. destruct IH as [I1 I2]. split.
        - intros [_ G]. rewrite I1 by exact G. reflexivity.
        - intros G. rewrite I2; [reflexivity|]. intros G'. apply G. split; [now left|exact G']. }
      destruct (Qc_eq_dec (wt d) 0) as [Zd|Nd].
      { rewrite push_remove_none; auto.
        2:{ rewrite To, Zd. ring. }
        cbn. split; [intros [[?|?] _]; contradiction|reflexivity]. }
      assert (R : pushs prev (-(1)) o = Some d) by (apply sub_add; auto).
      rewrite R. cbn [obind]. destruct IH as [I1 I2]. split.
      + intros [_ G]. rewrite I1 by exact G. reflexivity.
      + intros G. rewrite I2; [reflexivity|]. intros G'. apply G. split; [now right|exact G'].
  Qed.

  Lemma cumulative_roundtrip data rows : Forall wf data -> cumulative K data = Some rows ->
    (match map wt data with [] => True | w :: t => inv_guard w t end ->
       cumulative_inverse K rows = Some data) /\
    (~ match map wt data with [] => True | w :: t => inv_guard w t end ->
       cumulative_inverse K rows = None).
  Proof.
    intros Hw E. destruct data as [|d t]; cbn in E.
    - injection E as <-. cbn. split; [reflexivity|intros H; exfalso; now apply H].
    - inversion Hw as [|? ? Wd Wt]; subst.
      destruct (cumulative_from K d t) as [rs|] eqn:Et; cbn [obind] in E; [|discriminate].
      injection E as <-. cbn [map cumulative_inverse].
      destruct (cumulative_inverse_from_ok t d rs Wt Wd Et) as [I1 I2]. split; intros G.
      + now rewrite I1.
      + now rewrite I2.
  Qed.

  (* ---- resampling ---------------------------------------------------------------- *)

  Definition scale_rows (fd : list (Qc * A)) : list A := map (fun s => scaled (fst s) (snd s)) fd.

  Lemma scale_rows_Pos fd : Forall (fun s => 0 <= fst s /\ Pos (snd s)) fd -> Forall Pos (scale_rows fd).
  Proof.
    intros H. apply Forall_map. revert H. apply Forall_impl. intros [f d] [Hf Hd]. now apply scaled_Pos.
  Qed.

  Lemma resample_tail_eq t o : Forall (fun s => wf (snd s)) t ->
    foldM (fun o (s : Qc * A) => let (f', d') := s in if qeqb f' 0 then Some o else pushs d' f' o) t o
    = reduce_data_into K (scale_rows t) o.
  Proof.
    intros Hw. unfold reduce_data_into, scale_rows. rewrite foldM_map. apply foldM_ext.
    intros x [f d] Hin. cbn [fst snd]. rewrite Forall_forall in Hw. specialize (Hw _ Hin). cbn in Hw.
    destruct (qeqb_spec f 0) as [->|N].
    - now rewrite scaled_0_push.
    - now apply pushs_scaled.
  Qed.

  Lemma resample_row_all0 fd : Forall (fun s => fst s = 0) fd -> resample_row K fd = Some zero.
  Proof.
    induction fd as [|[f d] t IH]; intros H; [reflexivity|]. inversion H; subst. cbn in *. subst.
    rewrite qeqb_refl. auto.
  Qed.

  Lemma resample_row_ok fd : Forall (fun s => 0 <= fst s /\ Pos (snd s)) fd ->
    exists r, resample_row K fd = Some r /\ wf r /\
      (forall i, dom i -> phi r i = sumphi (scale_rows fd) i) /\
      (sumwt (scale_rows fd) <> 0 -> reduce_data K (scale_rows fd) = Some r).
  Proof.
    intros H.
    assert (M : exists r, resample_row K fd = Some r /\ wf r /\
      (forall i, dom i -> phi r i = sumphi (scale_rows fd) i)).
    { induction H as [|[f d] t [Hf [Wd Pd]] Ht IH].
      - exists zero. split; [reflexivity|]. split; [apply l_wf_zero|]. intros. now rewrite phi_zero.
      - cbn [fst snd] in *. cbn [resample_row]. destruct (qeqb_spec f 0) as [->|N].
        + destruct IH as (r & E & W & P). exists r. split; [exact E|]. split; [exact W|].
          intros i Hi. rewrite P by exact Hi. unfold scale_rows, sumphi. cbn [map fst snd].
          rewrite suml_cons, scaled_phi by exact Wd. ring.
        + rewrite resample_tail_eq.
          2:{ revert Ht. apply Forall_impl. now intros [? ?] [_ [? _]]. }
          destruct (reduce_into_ok (scale_rows t) (scaled f d)) as (r & E & W & T & P & C).
          * apply Pos_wf. now apply scale_rows_Pos.
          * now apply scaled_wf.
          * apply nv_nonneg.
            { rewrite scaled_wt by exact Wd. now apply Qc_mul_nonneg. }
            { apply Forall_map. pose proof (scale_rows_Pos t Ht) as HP. revert HP. apply Forall_impl.
              now intros a [_ ?]. }
          * exists r. split; [exact E|]. split; [exact W|]. intros i Hi. rewrite P by exact Hi.
            unfold scale_rows, sumphi. cbn [map fst snd]. rewrite suml_cons. ring. }
    destruct M as (r & E & W & P). exists r. split; [exact E|]. split; [exact W|]. split; [exact P|].
    intros N. pose proof (scale_rows_Pos fd H) as HP.
    apply reduce_unique; auto using Pos_wf, Pos_nv.
    apply canonical_nz; [exact W|]. rewrite <- phi_i0, P by apply l_i0_dom. now rewrite sumphi_i0.
  Qed.

  (* when nothing selected has weight, the first selected row is returned with weight 0 *)
  Lemma resample_row_degenerate pre f d t :
    Forall (fun s => fst s = 0) pre -> f <> 0 -> Forall (fun s => wf (snd s)) t -> wf d ->
    wt d = 0 -> Forall (fun s => wt (snd s) * fst s = 0) t ->
    resample_row K (pre ++ (f, d) :: t) = Some d.
  Proof.
    intros Hpre Hf Wt Wd Zd Zt. induction Hpre as [|[g e] pre Hg Hpre IH]; cbn [app resample_row].
    - rewrite (qeqb_neq _ _ Hf), resample_tail_eq by exact Wt.
      rewrite Zd, Qcmult_0_l, setwt_zero_wt0 by assumption.
      clear - Zt Wt L. unfold reduce_data_into, scale_rows. rewrite foldM_map.
      induction Zt as [|[g e] t Z Zt IH]; [reflexivity|]. cbn [foldM fst snd] in *.
      inversion Wt; subst. cbn [snd] in *. rewrite (l_push_zero _ _ L).
      + cbn. auto.
      + now rewrite scaled_wt.
    - cbn in Hg. subst. rewrite qeqb_refl. exact IH.
  Qed.

  (* resample_vals *)
  Lemma resample_vals_row_eq fx :
    resample_vals_row K fx = reduce_data K (map (fun s => pt (fst (snd s), snd (snd s) * fst s)) fx).
  Proof.
    unfold resample_vals_row, reduce_data, reduce_data_into. rewrite foldM_map. apply foldM_ext.
    intros o [f [x w]] _. cbn [fst snd]. destruct (qeqb_spec f 0) as [->|N].
    - symmetry. apply (l_push_zero _ _ L). rewrite pt_wt. cbn. ring.
    - apply (l_val _ _ L).
  Qed.

  (* replication *)
  Lemma sumphi_repeat d k i : sumphi (repeat d k) i = qn k * phi d i.
  Proof.
    unfold sumphi. induction k as [|k IH]; cbn [repeat].
    - rewrite suml_nil, qn_0. ring.
    - rewrite suml_cons, IH, qn_S. ring.
  Qed.
  Lemma Forall_repeat {B} (P : B -> Prop) x k : P x -> Forall P (repeat x k).
  Proof. intros H. apply Forall_forall. intros y Hy. apply repeat_spec in Hy. now subst. Qed.

  Lemma push_scale_repeat d o k : Pos d -> canonical o -> 0 <= wt o ->
    pushs d (qn k) o = reduce_data_into K (repeat d k) o.
  Proof.
    intros [Wd Pd] Co Po. rewrite pushs_scaled by exact Wd.
    destruct (reduce_into_ok (repeat d k) o) as (r & E & W & T & P & C).
    - now apply Forall_repeat.
    - apply Co.
    - apply nv_nonneg; [exact Po|]. apply Forall_map. now apply Forall_repeat.
    - destruct (push_ok (scaled (qn k) d) o) as (r' & E' & W' & T' & P' & C').
      + now apply scaled_wf.
      + apply Co.
      + rewrite scaled_wt by exact Wd. intros N. apply Qc_lt_neq, Qc_add_pos_r; [exact Po|].
        destruct (Qc_le_lt_eq (wt d * qn k)); auto.
        * apply Qc_mul_nonneg; [exact Pd|apply qn_nonneg].
        * contradiction.
      + rewrite E, E'. f_equal. apply phi_inj_can; auto. intros i Hi.
        rewrite P, P', scaled_phi, sumphi_repeat by auto. ring.
  Qed.

  (* integer counts: the resample is the reduction of the repeated rows *)
  Lemma scale_rows_repeat kd i : Forall (fun s => wf (snd s)) kd ->
    sumphi (scale_rows (map (fun s => (qn (fst s), snd s)) kd)) i
    = sumphi (concat (map (fun s => repeat (snd s) (fst s)) kd)) i.
  Proof.
    induction 1 as [|[k d] t Wd Ht IH]; [reflexivity|]. cbn [map concat]. unfold scale_rows, sumphi in *.
    cbn [map fst snd] in *. rewrite suml_cons, suml_app, IH, scaled_phi by exact Wd.
    fold (sumphi (repeat d k) i). rewrite sumphi_repeat. reflexivity.
  Qed.

  Lemma concat_repeat_Pos (kd : list (nat * A)) : Forall (fun s => Pos (snd s)) kd ->
    Forall Pos (concat (map (fun s => repeat (snd s) (fst s)) kd)).
  Proof.
    induction 1 as [|[k d] t Hd Ht IH]; cbn; [constructor|].
    apply Forall_app. split; [now apply Forall_repeat|exact IH].
  Qed.

  Lemma resample_row_counts (kd : list (nat * A)) : Forall (fun s => Pos (snd s)) kd ->
    sumwt (concat (map (fun s => repeat (snd s) (fst s)) kd)) <> 0 ->
    resample_row K (map (fun s => (qn (fst s), snd s)) kd)
    = reduce_data K (concat (map (fun s => repeat (snd s) (fst s)) kd)).
  Proof.
    intros H N. set (fd := map (fun s => (qn (fst s), snd s)) kd).
    assert (Hfd : Forall (fun s => 0 <= fst s /\ Pos (snd s)) fd).
    { apply Forall_map. revert H. apply Forall_impl. intros [k d] Hd. split; [apply qn_nonneg|exact Hd]. }
    assert (Hw : Forall (fun s => wf (snd s)) kd).
    { revert H. apply Forall_impl. now intros a [? _]. }
    destruct (resample_row_ok fd Hfd) as (r & E & W & P & R).
    rewrite E, <- R.
    - apply reduce_same_sum.
      + apply Pos_wf. now apply scale_rows_Pos.
      + apply Pos_wf. now apply concat_repeat_Pos.
      + apply Pos_nv. now apply scale_rows_Pos.
      + apply Pos_nv. now apply concat_repeat_Pos.
      + intros i Hi. now apply scale_rows_repeat.
    - rewrite <- sumphi_i0. unfold fd. rewrite scale_rows_repeat by exact Hw. now rewrite sumphi_i0.
  Qed.

  (* ---- jackknife -------------------------------------------------------------------- *)

  Definition drop_nth {B} (i : nat) (l : list B) : list B := firstn i l ++ skipn (S i) l.

  Lemma drop_nth_sum {B} (f : B -> Qc) l i dflt : (i < length l)%nat ->
    suml f (drop_nth i l) = suml f l - f (nth i l dflt).
  Proof.
    intros H. unfold drop_nth. rewrite suml_app.
    rewrite <- (firstn_skipn i l) at 3. rewrite suml_app.
    assert (E : skipn i l = nth i l dflt :: skipn (S i) l).
    { clear f. revert i H. induction l as [|a l IH]; intros [|i] H; cbn in *; try lia; [reflexivity|].
      apply IH. lia. }
    rewrite E, suml_cons. ring.
  Qed.
  Lemma drop_nth_Forall {B} (P : B -> Prop) l i : Forall P l -> Forall P (drop_nth i l).
  Proof.
    intros H. unfold drop_nth. apply Forall_app. split.
    - pose proof H as H1. rewrite <- (firstn_skipn i l) in H1. now apply Forall_app in H1.
    - pose proof H as H1. rewrite <- (firstn_skipn (S i) l) in H1. now apply Forall_app in H1.
  Qed.

  Lemma mapM_nth {X Y} (f : X -> option Y) l rows dx dy : mapM f l = Some rows ->
    forall i, (i < length l)%nat -> f (nth i l dx) = Some (nth i rows dy).
  Proof.
    revert rows. induction l as [|x l IH]; intros rows E i Hi; [cbn in Hi; lia|].
    cbn in E. destruct (f x) eqn:Ex; cbn in E; [|discriminate].
    destruct (mapM f l) eqn:El; cbn in E; [|discriminate]. injection E as <-.
    destruct i; cbn; [exact Ex|]. apply IH; [reflexivity|cbn in Hi; lia].
  Qed.
  Lemma mapM_total {X Y} (f : X -> option Y) l : (forall x, In x l -> exists y, f x = Some y) ->
    exists rows, mapM f l = Some rows.
  Proof.
    induction l as [|x l IH]; intros H; [now exists []|].
    destruct (H x (or_introl eq_refl)) as [y Ey]. destruct IH as [r Er]; [intros; apply H; now right|].
    exists (y :: r). cbn. now rewrite Ey, Er.
  Qed.
  Lemma mapM_none {X Y} (f : X -> option Y) l x : In x l -> f x = None -> mapM f l = None.
  Proof.
    induction l as [|a l IH]; intros Hin E; [destruct Hin|]. cbn. destruct Hin as [->|Hin].
    - now rewrite E.
    - destruct (f a); cbn; [|reflexivity]. now rewrite IH.
  Qed.

  Definition jack_guard (data : list A) : Prop := Forall (fun d => wt d = 0 \/ sumwt data <> wt d) data.

  Lemma jackknife_ok data : Forall Pos data -> jack_guard data ->
    exists rows, jackknife_data K data = Some rows /\ length rows = length data /\
      forall i, (i < length data)%nat -> reduce_data K (drop_nth i data) = Some (nth i rows zero).
  Proof.
    intros HP G. destruct (reduce_pos data HP) as (tot & E & C & T & P).
    unfold jackknife_data. rewrite E. cbn [obind]. unfold jackknife_data_from.
    assert (Step : forall d, In d data -> exists r, pushs d (-(1)) tot = Some r /\ canonical r /\
                  (forall i, dom i -> phi r i = sumphi data i - phi d i)).
    { intros d Hd. unfold jack_guard in G. rewrite Forall_forall in HP, G. destruct (HP d Hd) as [Wd Pd].
      destruct (push_remove d tot Wd (proj1 C)) as (r & Er & Wr & Tr & Pr & Cr).
      - intros N. destruct (G d Hd); [contradiction|]. now rewrite T.
      - exists r. split; [exact Er|]. split; [now apply Cr|]. intros i Hi. rewrite Pr, P by exact Hi. reflexivity. }
    destruct (mapM_total (fun d => pushs d (-(1)) tot) data) as [rows Er].
    { intros d Hd. destruct (Step d Hd) as (r & Hr & _). now exists r. }
    exists rows. split; [exact Er|]. split; [now apply mapM_length in Er|].
    intros i Hi. destruct (Step (nth i data zero)) as (r & Hr & Cr & Pr); [now apply nth_In|].
    pose proof (mapM_nth _ _ _ zero zero Er i Hi) as En. cbn beta in En. rewrite Hr in En. injection En as <-.
    assert (PD : Forall Pos (drop_nth i data)) by now apply drop_nth_Forall.
    apply reduce_unique; auto using Pos_wf, Pos_nv.
    intros j Hj. rewrite Pr by exact Hj. unfold sumphi. now rewrite (drop_nth_sum _ data i zero Hi).
  Qed.

  Lemma jackknife_none data : Forall Pos data -> ~ jack_guard data -> jackknife_data K data = None.
  Proof.
    intros HP G. destruct (reduce_pos data HP) as (tot & E & C & T & P).
    unfold jackknife_data. rewrite E. cbn [obind]. unfold jackknife_data_from.
    assert (X : exists d, In d data /\ wt d <> 0 /\ sumwt data = wt d).
    { unfold jack_guard in G.
      apply neg_Forall_Exists_neg in G.
      - apply Exists_exists in G. destruct G as (d & Hd & N). exists d. split; [exact Hd|]. split.
        + intros Z. apply N. now left.
        + destruct (Qc_eq_dec (sumwt data) (wt d)); [assumption|]. exfalso. apply N. now right.
      - intros d. destruct (Qc_eq_dec (wt d) 0); [left; now left|].
        destruct (Qc_eq_dec (sumwt data) (wt d)); [right|left; now right]. intros [?|?]; contradiction. }
    destruct X as (d & Hd & N & S). apply (mapM_none _ _ d Hd).
    apply push_remove_none; auto.
    - rewrite Forall_forall in HP. now apply HP.
    - apply C.
    - now rewrite T.
  Qed.

  Lemma pushv_remove x w o : p_push_val K x (- w) o = pushs (pt (x, w)) (-(1)) o.
  Proof.
    rewrite pushs_scaled by apply pt_wf. rewrite (l_val _ _ L). f_equal. unfold scaled.
    rewrite pt_wt. unfold pt. cbn [fst snd]. rewrite (l_point_setwt _ _ L). f_equal. ring.
  Qed.

  Lemma mapM_ext {X Y} (f g : X -> option Y) l : (forall x, In x l -> f x = g x) -> mapM f l = mapM g l.
  Proof.
    induction l as [|a l IH]; intros H; [reflexivity|]. cbn. rewrite H by now left.
    rewrite IH; [reflexivity|]. intros. apply H. now right.
  Qed.
  Lemma mapM_map {X Y Z} (f : Y -> option Z) (g : X -> Y) l : mapM f (map g l) = mapM (fun x => f (g x)) l.
  Proof. induction l as [|a l IH]; [reflexivity|]. cbn. now rewrite IH. Qed.

  Lemma jackknife_vals_points xw : jackknife_vals K xw = jackknife_data K (map pt xw).
  Proof.
    unfold jackknife_vals, jackknife_data. rewrite reduce_vals_points.
    destruct (reduce_data K (map pt xw)) as [r|]; cbn; [|reflexivity].
    unfold jackknife_vals_from, jackknife_data_from. rewrite mapM_map. apply mapM_ext.
    intros [x w] _. apply pushv_remove.
  Qed.

  (* ---- grouped ------------------------------------------------------------------------ *)

  Definition rows_of (g : nat) (gd : list (Z * A)) : list A :=
    map snd (filter (fun s => (fst s =? Z.of_nat g)%Z) gd).

  Lemma upd_nth_eq {B} (l : list B) i v d : (i < length l)%nat -> nth i (upd l i v) d = v.
  Proof. intros H. rewrite upd_nth, Nat.eqb_refl. now rewrite (proj2 (Nat.ltb_lt _ _) H). Qed.
  Lemma upd_nth_ne {B} (l : list B) i j v d : i <> j -> nth j (upd l i v) d = nth j l d.
  Proof. intros H. rewrite upd_nth. now rewrite (proj2 (Nat.eqb_neq _ _) H). Qed.

  (* every group row accumulates its own rows; nothing else changes *)
  Lemma grouped_into_ok gd : forall out, Forall (fun s => Pos (snd s)) gd ->
    Forall (fun s => (fst s < Z.of_nat (length out))%Z) gd ->
    Forall (fun o => canonical o /\ 0 <= wt o) out ->
    exists r, reduce_data_grouped_into K gd out = Some r /\ length r = length out /\
      forall g, (g < length out)%nat ->
        reduce_data_into K (rows_of g gd) (nth g out zero) = Some (nth g r zero).
  Proof.
    induction gd as [|[z d] t IH]; intros out HP HB HC.
    - exists out. cbn. repeat split; auto.
    - inversion HP as [|? ? [Wd Pd] HPt]; subst. inversion HB as [|? ? Hz HBt]; subst. cbn [fst snd] in *.
      unfold reduce_data_grouped_into in *. cbn [foldM]. unfold grouped_step at 1.
      destruct (Z.leb_spec 0 z) as [Hz0|Hz0].
      + set (k := Z.to_nat z). assert (Hk : (k < length out)%nat) by lia.
        assert (Ck : canonical (nth k out zero) /\ 0 <= wt (nth k out zero)).
        { rewrite Forall_forall in HC. apply HC. now apply nth_In. }
        destruct Ck as [Ck Pk].
        destruct (push_ok d (nth k out zero) Wd (proj1 Ck)) as (r1 & E1 & W1 & T1 & P1 & C1).
        { intros N. apply Qc_lt_neq, Qc_add_pos_r; [exact Pk|].
          destruct (Qc_le_lt_eq _ Pd); [contradiction|assumption]. }
        rewrite E1. cbn [obind].
        destruct (IH (upd out k r1)) as (r & E & Lr & R).
        * exact HPt.
        * rewrite upd_length. exact HBt.
        * apply Forall_forall. intros x Hx. apply In_nth with (d := zero) in Hx.
          destruct Hx as (j & Hj & <-). rewrite upd_length in Hj.
          destruct (Nat.eq_dec k j) as [<-|Nj].
          { rewrite upd_nth_eq by exact Hk. split; [now apply C1|]. rewrite T1. now apply Qc_add_nonneg. }
          { rewrite upd_nth_ne by exact Nj. rewrite Forall_forall in HC. apply HC. now apply nth_In. }
        * exists r. split; [exact E|]. rewrite upd_length in Lr, R. split; [exact Lr|].
          intros g Hg. specialize (R g Hg). unfold rows_of in *. cbn [filter fst].
          destruct (Z.eqb_spec z (Z.of_nat g)) as [Ez|Nz].
          { assert (k = g) by lia. subst g. rewrite upd_nth_eq in R by exact Hk.
            cbn [map snd]. unfold reduce_data_into in *. cbn [foldM]. rewrite E1. exact R. }
          { rewrite upd_nth_ne in R by lia. exact R. }
      + cbn [obind]. destruct (IH out HPt HBt HC) as (r & E & Lr & R).
        exists r. split; [exact E|]. split; [exact Lr|]. intros g Hg. specialize (R g Hg).
        unfold rows_of in *. cbn [filter fst]. destruct (Z.eqb_spec z (Z.of_nat g)); [lia|exact R].
  Qed.

  Lemma fold_max_ge t : forall b, (b <= fold_left Z.max t b)%Z /\ Forall (fun z => (z <= fold_left Z.max t b)%Z) t.
  Proof.
    induction t as [|z t IH]; intros b; cbn; [split; [lia|constructor]|].
    destruct (IH (Z.max b z)) as [H1 H2]. split; [lia|]. constructor; [lia|exact H2].
  Qed.
  Lemma fold_max_in t : forall b, fold_left Z.max t b = b \/ In (fold_left Z.max t b) t.
  Proof.
    induction t as [|z t IH]; intros b; cbn; [now left|].
    destruct (IH (Z.max b z)) as [H|H]; [|tauto]. rewrite H.
    destruct (Z.max_spec b z) as [[? E]|[? E]]; rewrite E; tauto.
  Qed.

  Lemma reduce_grouped_ok by_ data b t : by_ = b :: t -> length by_ = length data ->
    Forall Pos data -> (-1 <= fold_left Z.max t b)%Z ->
    exists r, reduce_data_grouped K by_ data = Ok r /\
      Z.of_nat (length r) = (fold_left Z.max t b + 1)%Z /\
      forall g, (g < length r)%nat ->
        reduce_data K (rows_of g (combine by_ data)) = Some (nth g r zero).
  Proof.
    intros Eb Hl HP Hm. subst by_. unfold reduce_data_grouped. rewrite Hl, Nat.eqb_refl. cbn [negb].
    set (m := fold_left Z.max t b) in *.
    destruct (Z.ltb_spec (m + 1) 0); [lia|].
    set (out := repeat zero (Z.to_nat (m + 1))).
    assert (Lo : length out = Z.to_nat (m + 1)) by apply repeat_length.
    destruct (grouped_into_ok (combine (b :: t) data) out) as (r & E & Lr & R).
    - apply Forall_forall. intros [z d] Hin. apply in_combine_r in Hin. rewrite Forall_forall in HP. now apply HP.
    - apply Forall_forall. intros [z d] Hin. apply in_combine_l in Hin. cbn [fst].
      rewrite Lo. destruct (fold_max_ge t b) as [G1 G2]. rewrite Forall_forall in G2.
      destruct Hin as [->|Hin]; [lia|]. specialize (G2 _ Hin). fold m in G2. lia.
    - apply Forall_repeat. split; [apply canonical_zero|]. rewrite (l_wt_zero _ _ L). apply Qcle_refl.
    - exists r. rewrite E. cbn [of_opt]. split; [reflexivity|]. rewrite Lr, Lo. split; [lia|].
      intros g Hg. rewrite <- Lo in Hg. specialize (R g Hg).
      replace (nth g out zero) with zero in R; [exact R|]. unfold out. symmetry. apply nth_repeat.
  Qed.

  (* reducing the group rows gives the reduction of everything that has a group *)
  Lemma sum_groups (f : A -> Qc) gd n : Forall (fun s => (fst s < Z.of_nat n)%Z) gd ->
    sumn (fun g => suml f (rows_of g gd)) n = suml f (map snd (filter (fun s => (0 <=? fst s)%Z) gd)).
  Proof.
    induction 1 as [|[z d] t Hz Ht IH]; cbn [fst] in *.
    - cbn. apply sumn_0.
    - cbn [filter fst]. destruct (Z.leb_spec 0 z) as [H0|H0].
      + cbn [map snd]. rewrite suml_cons, <- IH.
        rewrite (sumn_ext _ (fun g => (if Nat.eqb g (Z.to_nat z) then f d else 0) + suml f (rows_of g t))).
        2:{ intros g Hg. unfold rows_of. cbn [filter fst].
            destruct (Z.eqb_spec z (Z.of_nat g)), (Nat.eqb_spec g (Z.to_nat z)); try lia; cbn [map snd].
            - apply suml_cons.
            - ring. }
        rewrite sumn_add. f_equal. rewrite (sumn_pick _ n (Z.to_nat z)).
        * now rewrite Nat.eqb_refl.
        * lia.
        * intros i Hi N. now rewrite (proj2 (Nat.eqb_neq _ _) N).
      + rewrite <- IH. apply sumn_ext. intros g Hg. unfold rows_of. cbn [filter fst].
        destruct (Z.eqb_spec z (Z.of_nat g)); [lia|reflexivity].
  Qed.

  Lemma groups_total by_ data b t r : by_ = b :: t -> length by_ = length data ->
    Forall Pos data -> reduce_data_grouped K by_ data = Ok r ->
    reduce_data K r = reduce_data K (map snd (filter (fun s => (0 <=? fst s)%Z) (combine by_ data))).
  Proof.
    intros Eb Hl HP E.
    assert (Hm : (-1 <= fold_left Z.max t b)%Z).
    { unfold reduce_data_grouped in E. rewrite Hl, Nat.eqb_refl, Eb in E. cbn [negb] in E.
      destruct (Z.ltb_spec (fold_left Z.max t b + 1) 0); [discriminate|lia]. }
    destruct (reduce_grouped_ok by_ data b t Eb Hl HP Hm) as (r' & E' & Lr & R).
    rewrite E in E'. injection E' as <-.
    assert (Pgd : forall s, In s (combine by_ data) -> Pos (snd s)).
    { intros [z d] Hin. apply in_combine_r in Hin. rewrite Forall_forall in HP. now apply HP. }
    assert (PR : forall g, Forall Pos (rows_of g (combine by_ data))).
    { intros g. unfold rows_of. apply Forall_map, Forall_forall. intros s Hs. apply filter_In in Hs. now apply Pgd. }
    assert (Each : forall g, (g < length r)%nat ->
       canonical (nth g r zero) /\ wt (nth g r zero) = sumwt (rows_of g (combine by_ data)) /\
       forall i, dom i -> phi (nth g r zero) i = sumphi (rows_of g (combine by_ data)) i).
    { intros g Hg. destruct (reduce_pos _ (PR g)) as (x & Ex & Cx & Tx & Px).
      rewrite R in Ex by exact Hg. injection Ex as <-. auto. }
    assert (Posr : Forall Pos r).
    { apply Forall_forall. intros x Hx. apply In_nth with (d := zero) in Hx. destruct Hx as (g & Hg & <-).
      destruct (Each g Hg) as (C & T & _). split; [apply C|]. rewrite T. now apply Pos_sumwt. }
    assert (Posf : Forall Pos (map snd (filter (fun s => (0 <=? fst s)%Z) (combine by_ data)))).
    { apply Forall_map, Forall_forall. intros s Hs. apply filter_In in Hs. now apply Pgd. }
    apply reduce_same_sum; auto using Pos_wf, Pos_nv.
    intros i Hi. unfold sumphi. rewrite <- (sum_groups (fun d => phi d i) _ (length r)).
    - rewrite (suml_nth _ r zero). apply sumn_ext. intros g Hg. destruct (Each g Hg) as (_ & _ & P). now apply P.
    - apply Forall_forall. intros [z d] Hin. apply in_combine_l in Hin. cbn [fst]. rewrite Lr. subst by_.
      destruct (fold_max_ge t b) as [G1 G2]. rewrite Forall_forall in G2.
      destruct Hin as [->|Hin]; [lia|]. specialize (G2 _ Hin). lia.
  Qed.

End Gen.
