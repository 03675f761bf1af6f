(** A scan on disk and what a loop over its reader should see. *)
From Coq Require Import String Ascii ZArith List.
From Verif Require Import Base BlockModel StreamModel StreamSpec SectorModel SectorSpec
  ScanPathModel NameSpec LoopModel.
Import ListNotations.
Open Scope Z_scope.

(** The argument of reader() for these file names. *)
Definition names_of (path : path_arg) (names : list text) : Prop :=
  path = ManyFiles names \/ exists n, path = OneFile n /\ names = [n].

(** The named files can be read and hold, one after the other, the records [recs]
    of version [v]. *)
Definition stream_scan (fs : file_system) (names : list text) (v : Z) (recs : list record) : Prop :=
  names <> [] /\ Forall wf_record recs /\ Forall (fun r => rec_version r = v) recs /\
  exists files, files_hold files recs /\
    map fs names = map (fun f => Some (concat f)) files.

(** A record that says which version it has: the header of version 1 has a field
    for it. *)
Definition marked (r : record) : Prop :=
  match r with Rec1 _ _ ver _ _ _ _ _ => ver <> 0 | _ => True end.

(** The records before the first one that does not. *)
Definition until_unmarked (recs shown : list record) : Prop :=
  exists rest, recs = shown ++ rest /\ Forall marked shown /\
    match rest with r :: _ => ~ marked r | [] => True end.

(** The named files can be read, their names tell the sectors, and they hold the
    records of those sectors. *)
Definition sector_scan (g : geom) (fs : file_system) (names : list text) (sfs : list sfile) : Prop :=
  names <> [] /\ wf_sfiles g sfs /\ same_scan sfs /\
  Forall2 (fun name f => single_line name /\ last_number name (fst f) /\ 0 <= fst f < 4 /\
             fs name = Some (flat_map encode_srec (snd f))) names sfs.
