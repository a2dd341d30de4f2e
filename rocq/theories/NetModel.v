(* Publish/subscribe network of the lidar pipeline.  Each processing module is one subscription and
   one publisher; the callback of one subscription never runs twice at the same time (roscpp default),
   callbacks of different subscriptions run concurrently (AsyncSpinner, node.cpp:76-82).
   A subscription queue holds `cap` messages; a message arriving at a full queue displaces the oldest
   (roscpp SubscriptionQueue::push).  All modules live in one process, so that delivery is immediate
   and the outgoing queues of the publishers are not used.                                         *)
From Verif Require Import Base.

Section Net.
  Variable C S : Type.                 (* clouds; processing steps with their settings *)
  Variable f : S -> C -> res C.        (* what a callback publishes; Throw: exception escapes the callback *)
  Variable cap : nat.

  (* a subscription with its callback and publisher: e.g. pointcloud_filter.cpp:34-37 and :135-137 *)
  Record nd := Nd { n_sub : string; n_op : S; n_pub : string }.

  (* a module with its queue and the message its callback is working on *)
  Record cell := Cell { c_nd : nd; c_q : list C; c_busy : option C }.
  Record net := Net { cells : list cell; log : list (string * C) }.

  Inductive lab := In_ (t : string) (m : C) | Start (i : nat) | Fin (i : nat).

  Definition init (ns : list nd) : net := Net (map (fun n => Cell n [] None) ns) [].

  (* SubscriptionQueue::push: full queue loses its oldest message *)
  Definition enq (q : list C) (m : C) : list C := if (length q <? cap)%nat then q ++ [m] else tl q ++ [m].

  Definition deliver (t : string) (m : C) (c : cell) : cell :=
    if String.eqb (n_sub (c_nd c)) t then Cell (c_nd c) (enq (c_q c) m) (c_busy c) else c.

  (* Publisher::publish *)
  Definition publish (t : string) (m : C) (s : net) : net := Net (map (deliver t m) (cells s)) (log s ++ [(t, m)]).

  Fixpoint upd {A} (l : list A) (i : nat) (a : A) : list A :=
    match l, i with
    | [], _ => []
    | _ :: l', O => a :: l'
    | x :: l', Datatypes.S j => x :: upd l' j a
    end.

  Definition step (l : lab) (s : net) : option (res net) :=
    match l with
    | In_ t m => Some (Ok (publish t m s))
    | Start i =>
        match nth_error (cells s) i with
        | Some (Cell n (m :: q) None) => Some (Ok (Net (upd (cells s) i (Cell n q (Some m))) (log s)))
        | _ => None
        end
    | Fin i =>
        match nth_error (cells s) i with
        | Some (Cell n q (Some m)) =>
            match f (n_op n) m with
            | Ok r => Some (Ok (publish (n_pub n) r (Net (upd (cells s) i (Cell n q None)) (log s))))
            | Throw => Some Throw
            | UB => Some UB
            end
        | _ => None
        end
    end.

  Fixpoint exec (ls : list lab) (s : net) : option (res net) :=
    match ls with
    | [] => Some (Ok s)
    | l :: ls' => match step l s with
                  | Some (Ok s') => exec ls' s'
                  | Some r => match ls' with [] => Some r | _ => None end
                  | None => None
                  end
    end.
End Net.
