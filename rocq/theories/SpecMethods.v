(* Specification vocabulary for the methods of CentralMomentsArray that push onto
   the object.  Moment axes are the last ones, so a moment array is found by its
   position, a list of indices. *)
From Verif Require Import Base BaseLemmas ModelPush ModelKernels ModelIndex ModelAccum ModelAxes ModelState ModelParams ModelNd ModelWrap ModelMethods
  Spec SpecAxes SpecNd.

(* the moment array of t at position p *)
Definition mom_cell {A} (P : packer A) (t : tensor) (p : list nat) : A := pk_pack P (fun m => tget t (p ++ m)).
(* the position inside an array of shape s of the position l of the loop: the last
   indices of l, 0 along axes of length 1 *)
Definition stretched (s l : list nat) : list nat :=
  map (fun p => if Nat.eqb (fst p) 1 then 0 else snd p) (combine s (skipn (length l - length s) l)).
(* the positions of the loop that fall on position p of an array of shape s *)
Definition landing (s loop p : list nat) : list (list nat) :=
  filter (fun l => if list_eq_dec Nat.eq_dec (stretched s l) p then true else false) (all_idx loop).

(* an array of values without its sample axis, r counted from the end *)
Definition less_axis (r : nat) (s : list nat) : list nat := firstn (length s - 1 - r) s ++ skipn (length s - r) s.
Definition value_loop (r : nat) (t : tensor) : list nat := if Nat.leb (tndim t) 1 then [] else less_axis r (tshape t).
(* sample i of the values t at position l of the loop *)
Definition sample_value (t : tensor) (r i : nat) (l : list nat) : Qc :=
  match tndim t with
  | 0 => tget t []
  | 1 => tget t [i]
  | _ => let p := stretched (value_loop r t) l in tget t (firstn (length p - r) p ++ i :: skipn (length p - r) p)
  end.
Definition samples_on {V} (R : reader V) (x w : tensor) (y : list tensor) (r : nat) (l : list nat) : list (V * Qc) :=
  map (fun i => (rd_val R (map (fun t => sample_value t r i l) (x :: y)), sample_value w r i l)) (seq 0 (dim_from_end x r)).
(* one value per position *)
Definition value_on (t : tensor) (l : list nat) : Qc := tget t (stretched (tshape t) l).

(* calls of push methods *)
Inductive push_call :=
| CallData (d : tensor) (scale : option tensor)                        (* c.push_data(d, scale=scale) *)
| CallDatas (axis : axis_arg) (mom_axes : option (list Z)) (d : tensor) (* c.push_datas(d, axis=axis, mom_axes=mom_axes) *)
| CallVal (x w : tensor) (y : list tensor)                             (* c.push_val(x, *y, weight=w) *)
| CallVals (axis : axis_arg) (x w : tensor) (y : list tensor).          (* c.push_vals(x, *y, weight=w, axis=axis) *)
Definition run_call {A V} (K : pusher A V) (P : packer A) (R : reader V) (stretch : bool) (c : cmarray) (call : push_call) : res cmarray :=
  match call with
  | CallData d scale => c_push_data K P stretch c d scale
  | CallDatas axis mom_axes d => c_push_datas K P stretch c axis (option_map IIter mom_axes) d
  | CallVal x w y => c_push_val K P R stretch c x w y
  | CallVals axis x w y => c_push_vals K P R stretch c axis x w y
  end.
(* what a call that fits an object of value shape s does at each position of the
   loop: a push of one moment array or of one list of samples *)
Inductive push_call_at {A V} (P : packer A) (R : reader V) (s loop : list nat) : push_call -> (list nat -> push_op (A := A) (V := V)) -> Prop :=
| at_data d sd : tensor_ok d -> tshape d = sd ++ pk_shape P -> broadcasts [sd; s] loop ->
    push_call_at P R s loop (CallData d None) (fun l => PushData (mom_cell P d (stretched sd l)))
| at_scale d sd sc : tensor_ok d -> tshape d = sd ++ pk_shape P -> tensor_ok sc -> broadcasts [sd; tshape sc; s] loop ->
    push_call_at P R s loop (CallData d (Some sc)) (fun l => PushDataScale (mom_cell P d (stretched sd l)) (value_on sc l))
| at_datas axis mom_axes mom a M L d : mom = match mom_axes with Some l => l | None => axes_last (length (pk_shape P)) end ->
    axis_of_moments P mom axis a M d -> L = except_nat (seq 0 (tndim d)) (a :: M) -> broadcasts [map (shape_of d) L; s] loop ->
    push_call_at P R s loop (CallDatas axis mom_axes d)
      (fun l => PushDatas (rows_along P d [a] M (bind L (stretched (map (shape_of d) L) l) (fun _ => 0))))
| at_val x w y : S (length y) = length (pk_shape P) -> Forall tensor_ok (x :: w :: y) ->
    broadcasts (map tshape (x :: w :: y) ++ [s]) loop ->
    push_call_at P R s loop (CallVal x w y) (fun l => PushVal (rd_val R (map (fun t => value_on t l) (x :: y))) (value_on w l))
| at_vals axis r x w y : S (length y) = length (pk_shape P) -> samples_agree x (w :: y) axis r ->
    broadcasts (map (value_loop r) (x :: w :: y) ++ [s]) loop ->
    push_call_at P R s loop (CallVals axis x w y) (fun l => PushVals (samples_on R x w y r l)).
