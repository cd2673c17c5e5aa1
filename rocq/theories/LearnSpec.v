(** What learning a bit should do to the next answer in the same situation. Probabilities are those of Zero. *)
From Verif Require Import Base MixerSpec.

(** [q] is at least as good an answer as [p] if the bit is [b], up to [slack]. *)
Definition no_worse (b : bit) (slack p q : Z) : Prop := if b then q <= p + slack else p - slack <= q.

(** Calls that only set inputs. *)
Definition is_input (c : call) : Prop := match c with SetInput _ _ _ => True | _ => False end.
(** The same inputs are set before and after learning [b]; both times they are mixed. *)
Definition ask_learn_ask (inputs : list call) (b : bit) (p mx : Z) : list call :=
  inputs ++ [MixAll; Update b p mx] ++ inputs ++ [MixAll].
