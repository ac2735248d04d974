(* C90: time that passes while there is no connection. *)
From Verif Require Import Base VarInt Prims Props Codes Packets Options Session Client System SpecSession.

(* there is no stream, and no answer of a broker has been accepted for a new one *)
Definition apart (s : sys) : Prop :=
  nt_connected (y_net s) = false /\ match y_pc s with PIdle | PConnWrite | PConnRead => True | _ => False end.
(* the same observations, [d] later *)
Definition later (d : N) (l : list (N * out)) : list (N * out) := map (fun x => (fst x + d, snd x)) l.
(* the same continuation from [s], [d] later *)
Definition same_later (d : N) (s : sys) (a b : option sys) : Prop :=
  match a, b with
  | Some t, Some t' => y_state t' = y_state t /\ y_wait t' = y_wait t /\ y_chan t' = y_chan t /\ y_now t' = y_now t + d /\
      exists l, y_log t = y_log s ++ l /\ y_log t' = y_log s ++ later d l
  | None, None => True
  | _, _ => False
  end.
