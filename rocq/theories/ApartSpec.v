(** What it is to be attached to the output of a workflow. *)
From Coq Require Import List.
From Verif Require Import Base ExecModel ApartModel.
Import ListNotations.

(** [leads w x y]: going from port to block, from block to port and along pipes, one comes from
    [x] to [y]. *)
Inductive leads (w : workflow) : node -> node -> Prop :=
| l_in n b v : nth_error (blocks w) n = Some b -> In v (b_in b) -> leads w (NVar v) (NBlock n)
| l_out n b v : nth_error (blocks w) n = Some b -> In v (b_out b) -> leads w (NBlock n) (NVar v)
| l_pipe s t : In (s, t) (pipes w) -> leads w (NVar s) (NVar t)
| l_trans x y z : leads w x y -> leads w y z -> leads w x z.
