(** What the properties about the files of a consolidation speak about. *)
From Coq Require Import Ascii String ZArith.
From Verif.Model Require Import Names.
From Coq Require Import List. Import ListNotations.
Local Open Scope list_scope.

(** The name of the catalogue of a tile as the task of the tile writes it: redmappertask.py:75, 168, 237, 298, configuration.py:839-878 *)
Definition tile_name (base typ : str) (nside pix : Z) : str :=
  base ++ s_ "_" ++ fmt 1 nside ++ s_ "_" ++ fmt 5 pix ++ s_ "_" ++ typ ++ s_ "_catalog.fit".
Definition tile_path (path base typ : str) (nside pix : Z) : str := path ++ s_ "/" ++ tile_name base typ nside pix.
(** a text in which a resolution and a pixel can be read *)
Definition all_digits (s : str) : Prop := forall c, In c s -> 48 <= nat_of_ascii c <= 57.
Definition reads_as_tile (s : str) : Prop :=
  exists u a b v, s = u ++ s_ "_" ++ a ++ s_ "_" ++ b ++ s_ "_" ++ v /\ a <> [] /\ all_digits a /\ length b = 5 /\ all_digits b.
(** the names of the form outbase_(anything)_(five characters)_type_catalog.fit *)
Definition of_form (base typ name : str) : Prop :=
  exists w five, name = base ++ s_ "_" ++ w ++ s_ "_" ++ five ++ s_ "_" ++ typ ++ s_ "_catalog.fit" /\ length five = 5.
