(** Model of the split-map-combine class: three threads, two queues and a process pool.
    Source: tools/smc.py L165-357. *)
From Coq Require Import ZArith List Bool Arith.
Import ListNotations.

(** Threads are transition systems that share the queues; every execution is an interleaving of
    their steps.  [A] is the type of a chunk, [R] of the result of func for a chunk; [func]
    returns None if it raises an exception.

    Simplifications: a busy-waiting loop is a step that is enabled when its condition is met;
    force_stop is only set on an exception when opening, reading or closing a file, and these
    exceptions are not modelled; func is deterministic.  The chunks are what
    data_aligned_at_events delivers (ChunksModel). *)
Section Smc.
  Context {A R : Type} (func : A -> option R) (n_cores : nat).

  (** tools/smc.py L165-201: [RNext] before next(gen_data), [RWait] waiting for an empty data_deque (L193) *)
  Inductive reader_pc := RNext | RWait | RDone.
  (** tools/smc.py L203-223: [WPop] at popleft, [WHave d] holding a chunk; [WDead d] terminated by an exception
      of func (n_cores = 1) *)
  Inductive worker_pc := WPop | WHave (d : A) | WDone | WDead (d : A).
  (** an entry of res_deque: the chunk and whether its result is ready [for tools/smc.py L165-327] *)
  Definition task : Type := A * bool.
  (** tools/smc.py L225-327: [PPop] at popleft, [PHave t] waiting for the result of a task; [PDead] terminated by
      an exception *)
  Inductive writer_pc := PPop | PHave (t : task) | PDone | PDead (d : option A).

  (** tools/smc.py L165-327 *)
  Record state := mk_state {
    rem : list A;                    (* chunks not yet read *)
    data_deque : list (option A);    (* None is the end marker *)
    res_deque : list (option task);
    rpc : reader_pc;
    wpc : worker_pc;
    ppc : writer_pc;
    out : list R                     (* results written, in order *)
  }.

  (** tools/smc.py L165-327 *)
  Definition init (chunks : list A) : state := mk_state chunks [] [] RNext WPop PPop [].

  (** tools/smc.py L165-327 *)
  Inductive step : state -> state -> Prop :=
  (* L183-192 *)
  | read_chunk c cs dq rq w p o :
      step (mk_state (c :: cs) dq rq RNext w p o) (mk_state cs (dq ++ [Some c]) rq RWait w p o)
  (* L193-194 *)
  | read_wait cs rq w p o :
      step (mk_state cs [] rq RWait w p o) (mk_state cs [] rq RNext w p o)
  (* L187-188 StopIteration, L201 *)
  | read_end dq rq w p o :
      step (mk_state [] dq rq RNext w p o) (mk_state [] (dq ++ [None]) rq RDone w p o)
  (* L206 *)
  | work_pop cs d dq rq r p o :
      step (mk_state cs (Some d :: dq) rq r WPop p o) (mk_state cs dq rq r (WHave d) p o)
  (* L209-210, L223 *)
  | work_end cs dq rq r p o :
      step (mk_state cs (None :: dq) rq r WPop p o) (mk_state cs dq (rq ++ [None]) r WDone p o)
  (* L211-222, n_cores > 1: the task is handed to the pool *)
  | work_submit cs d dq rq r p o :
      length rq < n_cores + 1 -> n_cores <> 1 ->
      step (mk_state cs dq rq r (WHave d) p o) (mk_state cs dq (rq ++ [Some (d, false)]) r WPop p o)
  (* L213-214, n_cores = 1: func is called by the thread *)
  | work_call cs d dq rq r p o res :
      length rq < n_cores + 1 -> n_cores = 1 -> func d = Some res ->
      step (mk_state cs dq rq r (WHave d) p o) (mk_state cs dq (rq ++ [Some (d, true)]) r WPop p o)
  | work_raise cs d dq rq r p o :
      length rq < n_cores + 1 -> n_cores = 1 -> func d = None ->
      step (mk_state cs dq rq r (WHave d) p o) (mk_state cs dq rq r (WDead d) p o)
  (* a process of the pool finishes any task *)
  | pool_queue cs dq rq1 d rq2 r w p o :
      step (mk_state cs dq (rq1 ++ Some (d, false) :: rq2) r w p o)
           (mk_state cs dq (rq1 ++ Some (d, true) :: rq2) r w p o)
  | pool_held cs dq rq r w d o :
      step (mk_state cs dq rq r w (PHave (d, false)) o) (mk_state cs dq rq r w (PHave (d, true)) o)
  (* L239-243 *)
  | write_pop cs dq t rq r w o :
      step (mk_state cs dq (Some t :: rq) r w PPop o) (mk_state cs dq rq r w (PHave t) o)
  (* L249-253, L286-297: the result is appended *)
  | write_result cs dq rq r w d o res :
      func d = Some res ->
      step (mk_state cs dq rq r w (PHave (d, true)) o) (mk_state cs dq rq r w PPop (o ++ [res]))
  (* L250: res.get() raises the exception of func *)
  | write_raise cs dq rq r w d o :
      func d = None ->
      step (mk_state cs dq rq r w (PHave (d, true)) o) (mk_state cs dq rq r w (PDead (Some d)) o)
  (* L244-245, L299-327 *)
  | write_end cs dq rq r w o :
      o <> [] ->
      step (mk_state cs dq (None :: rq) r w PPop o) (mk_state cs dq rq r w PDone o)
  (* L301: res_data does not exist if there was no chunk *)
  | write_end_empty cs dq rq r w :
      step (mk_state cs dq (None :: rq) r w PPop []) (mk_state cs dq rq r w (PDead None) []).

  (** tools/smc.py L165-327 *)
  Inductive steps : nat -> state -> state -> Prop :=
  | steps_O s : steps O s s
  | steps_S k s s' s'' : steps k s s' -> step s' s'' -> steps (S k) s s''.

  (** tools/smc.py L165-327 *)
  Definition reachable (chunks : list A) (s : state) : Prop := exists k, steps k (init chunks) s.

  (** tools/smc.py L346-353: the three joins return when no thread is alive any more; an exception that ended a
      thread is not seen by the caller *)
  Definition returned (s : state) : Prop :=
    rpc s = RDone /\ (wpc s = WDone \/ exists d, wpc s = WDead d) /\
    (ppc s = PDone \/ exists d, ppc s = PDead d).
End Smc.
Arguments state A R : clear implicits.

(** tools/smc.py L264-297: how the result of a chunk is combined with what is there.  Tables are appended
    (L288).  Histograms: L292-297, with numpy.ndarray.resize, which keeps the flat order of the
    elements and fills up with zeros.  A histogram is a shape and the flat array.  The entries are
    unbounded integers (dtype overflow is not modelled). *)
Local Open Scope Z_scope.
(** tools/smc.py L264-297 *)
Definition resize (l : list Z) (n : nat) : list Z := firstn n l ++ repeat 0 (n - length l).

(** tools/smc.py L264-297 *)
Fixpoint add_arrays (a b : list Z) : list Z :=
  match a, b with
  | x :: a', y :: b' => (x + y) :: add_arrays a' b'
  | _, _ => []
  end.

(** one dimension: tools/smc.py L292-297 *)
Definition combine_hist (h res : list Z) : list Z :=
  let n := Nat.max (length h) (length res) in
  add_arrays (resize h n) (resize res n).

(** tools/smc.py L283 np.zeros_like of the first result, then L292-297 for each *)
Definition combine_hists (results : list (list Z)) : list Z :=
  match results with
  | [] => []
  | r0 :: _ => fold_left combine_hist results (repeat 0 (length r0))
  end.

(** two dimensions [for tools/smc.py L283] *)
Record hist2 := mk_hist2 { rows2 : nat; cols2 : nat; flat2 : list Z }.
(** tools/smc.py L283 *)
Definition combine_hist2 (h res : hist2) : hist2 :=
  let r := Nat.max (rows2 h) (rows2 res) in
  let c := Nat.max (cols2 h) (cols2 res) in
  mk_hist2 r c (add_arrays (resize (flat2 h) (r * c)) (resize (flat2 res) (r * c))).

(** tools/smc.py L283 *)
Definition combine_hists2 (results : list hist2) : hist2 :=
  match results with
  | [] => mk_hist2 0 0 []
  | r0 :: _ => fold_left combine_hist2 results (mk_hist2 (rows2 r0) (cols2 r0) (repeat 0 (rows2 r0 * cols2 r0)))
  end.
