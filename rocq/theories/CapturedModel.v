(** Model of SectorStreamReader::dataCaptured, stempy/reader.cpp:612-632. *)
From Coq Require Import String ZArith List.
From Verif Require Import Base BlockModel StreamModel SectorModel Float32.
Import ListNotations.
Open Scope Z_scope.

(** :627-631.  The product of the uint32_t dimensions and 4 is a uint32_t, which
    is converted to float for the division; the dimensions are zero if no header
    was read (std::pair's default constructor). *)
Definition data_captured (g : geom) (v : Z) (files : list (Z * bytes)) : outcome float32 :=
  let* (n, dims) := sector_count g v files in
  let expected := u32 (u32 (fst dims * snd dims) * 4) in
  Ok (f_div (f_of_Z n) (f_of_Z expected)).
