(** The names of the plots of a catalogue. *)
From Coq Require Import String.
From Verif.Model Require Import PlotOut.
Definition cat_name (k : pkind) : string := match k with PSpec => "zspec" | PNz => "nz" | PLam => "nlambda" | PPos => "positions" end.
