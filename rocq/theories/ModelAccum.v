(* Accumulator objects: the operators and push methods of the wrapper classes,
   as functions on the moment array of one value position (val_shape = ()).
   Sharing of arrays between objects is modelled separately (ModelHeap). *)
From Verif Require Import Base ModelKernels.
Local Open Scope Qc_scope.

Section Accum.
  Context {A V : Type} (K : pusher A V).

  (* wrap_abc.py:494-502 __iadd__, __add__: (copy of) self, then push_data(other.obj) *)
  Definition acc_add (a b : A) : option A := p_push_data K b a.
  (* wrap_abc.py:504-512 __isub__, __sub__: push_data(other.obj, scale=-1.0) *)
  Definition acc_sub (a b : A) : option A := p_push_data_scale K b (-(1)) a.
  (* wrap_abc.py:514-516 __mul__: assign_moment(weight=self.weight() * scale) *)
  Definition acc_mul (a : A) (s : Qc) : A := p_setwt K (p_wt K a * s) a.

  (* wrap_np.py:364-574 push_data, push_datas, push_val, push_vals *)
  Inductive push_op :=
  | PushVal (x : V) (w : Qc)               (* push_val(x, weight=w) *)
  | PushVals (xw : list (V * Qc))          (* push_vals(x, weight=w) *)
  | PushData (d : A)                       (* push_data(d) *)
  | PushDataScale (d : A) (s : Qc)         (* push_data(d, scale=s) *)
  | PushDatas (ds : list A).               (* push_datas(ds) *)

  (* wrap_np.py:363-576, wrap_abc.py:363-484: one push method *)
  Definition run_op (o : A) (op : push_op) : option A :=
    match op with
    | PushVal x w => p_push_val K x w o
    | PushVals xw => reduce_vals_into K xw o
    | PushData d => p_push_data K d o
    | PushDataScale d s => p_push_data_scale K d s o
    | PushDatas ds => reduce_data_into K ds o
    end.
  (* a sequence of push calls, wrap_np.py:363-576 *)
  Definition run_ops (ops : list push_op) (o : A) : option A := foldM run_op ops o.
End Accum.
Arguments PushVal {A V}. Arguments PushVals {A V}. Arguments PushData {A V}.
Arguments PushDataScale {A V}. Arguments PushDatas {A V}.
