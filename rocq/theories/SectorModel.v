(** Model of SectorStreamReader (stempy/reader.cpp:278-632, reader.h:193-277):
    frames of the detector arrive as four sectors from several files and are
    assembled by scan position. *)
From Coq Require Import String ZArith List Bool.
From Verif Require Import Base BlockModel StreamModel.
Import ListNotations.
Open Scope Z_scope.

(** Frame size.  The code has the constants FRAME_DIMENSIONS = {576, 576},
    SECTOR_DIMENSIONS_VERSION_4 = {144, 576} and SECTOR_DIMENSIONS_VERSION_5 =
    {576, 144} (reader.cpp:38-42).  The model is generic in the frame size, a
    sector being a quarter of the frame; [stempy_geom] is the code. *)
Record geom := mkGeom { g_w : Z; g_h : Z }.
Definition stempy_geom : geom := mkGeom 576 576.

Definition sector_dims (g : geom) (v : Z) : Z * Z :=
  if v =? 4 then (g_w g / 4, g_h g) else (g_w g, g_h g / 4).

Definition sector_size (g : geom) (v : Z) : Z :=
  u32 (fst (sector_dims g v) * snd (sector_dims g v)).

(** Address of the [k]-th pixel read for [sector]; uint32_t arithmetic with the
    int [sector] converted to unsigned (reader.cpp:512-516, 523-524).  Pixels
    that follow each other in one read() are at consecutive addresses. *)
Definition sector_address (g : geom) (v sector k : Z) : Z :=
  if v =? 4 then
    let sw := fst (sector_dims g 4) in
    let frameX := u32 (sector * sw) in
    let frameY := k / sw in
    u32 (u32 (g_w g * frameY) + frameX) + k mod sw
  else
    let frameY := u32 (sector * snd (sector_dims g 5)) in
    u32 (frameY * g_w g) + k.

(** Storing the pixels [px] of a sector in the frame. *)
Definition place_sector (g : geom) (v sector : Z) (px frame : list Z) : outcome (list Z) :=
  for_loop (Zlen px) (fun k fr =>
    let* p := rd px k in wr fr (sector_address g v sector k) p) frame.

(** readSectorData, reader.cpp:491-529: the pixels are read straight into the
    frame.  If the file ends too early, the pixels (and the low byte of the
    last one) that are there are stored, the rest of the frame is left as it
    is, and no error is raised.  Second component: what is left of the file. *)
Definition read_sector_data (g : geom) (v sector : Z) (rem : bytes) (frame : list Z)
  : outcome (list Z * bytes) :=
  let size := sector_size g v in
  if size * 2 <=? Zlen rem then
    let* fr := place_sector g v sector (words (Z.to_nat size) 2 rem) frame in
    Ok (fr, skipn (Z.to_nat (size * 2)) rem)
  else
    let n := Zlen rem / 2 in
    let* fr := place_sector g v sector (words (Z.to_nat n) 2 rem) frame in
    if Z.odd (Zlen rem) then
      let a := sector_address g v sector n in
      let* old := rd fr a in
      let* b := rd rem (Zlen rem - 1) in
      let* fr := wr fr a (b + 256 * (old / 256)) in
      Ok (fr, [])
    else Ok (fr, []).

(** readHeader, reader.cpp:331-368.  A file that ends inside the header leaves
    local variables uninitialised, which are then used. *)
Record shdr := mkShdr {
  sh_scan : Z; sh_frame : Z; sh_dims : Z * Z; sh_pos : Z
}.

Definition sector_header (rem : bytes) : outcome (shdr * bytes) :=
  if Zlen rem <? 16 then UB "uninitialised header"
  else
    let a := words 2 4 rem in
    let p := words 4 2 (skipn 8 rem) in
    let* scan := rd a 0 in
    let* frame := rd a 1 in
    let* sw := rd p 0 in
    let* sh := rd p 1 in
    let* x := rd p 2 in
    let* y := rd p 3 in
    Ok (mkShdr scan frame (sw, sh) (u32 (u32 (y * sw) + x)), skipn 16 rem).

(** std::map<uint32_t, Frame> m_frameCache (reader.h:241): association list in
    increasing key order. *)
Section Map.
Context {A : Type}.
Fixpoint map_get (k : Z) (m : list (Z * A)) : option A :=
  match m with
  | [] => None
  | (k', a) :: t => if k' =? k then Some a else map_get k t
  end.
Fixpoint map_put (k : Z) (a : A) (m : list (Z * A)) : list (Z * A) :=
  match m with
  | [] => [(k, a)]
  | (k', a') :: t =>
      if k <? k' then (k, a) :: m
      else if k =? k' then (k, a) :: t
      else (k', a') :: map_put k a t
  end.
Fixpoint map_erase (k : Z) (m : list (Z * A)) : list (Z * A) :=
  match m with
  | [] => []
  | (k', a') :: t => if k' =? k then t else (k', a') :: map_erase k t
  end.
End Map.

(** struct Frame (reader.h:235-240): block and sector count. *)
Record frame := mkFrame { f_block : block; f_count : Z }.

(** A newly allocated frame, reader.cpp:441-457 (the image number list has
    the position; the frame number is not recorded). *)
Definition new_frame (g : geom) (v : Z) (h : shdr) : frame :=
  mkFrame (mkBlock (mkHeader (sh_dims h) (g_w g, g_h g) 1 v 0 0 (sh_scan h)
                             [sh_pos h] [])
                   (Some (repeat 0 (Z.to_nat (u32 (g_w g * g_h g))))))
          0.

(** reader.h:219-228, 240-256: the open streams with their sector numbers, the
    iterator, the cache and the files (sector number from the name, and
    contents). *)
Record ssr := mkSSR {
  ss_files : list (Z * bytes);
  ss_streams : list (Z * bytes);
  ss_it : nat;
  ss_cache : list (Z * frame);
  ss_version : Z
}.

(** openFiles, reader.cpp:531-555 (all files can be opened) and the constructor,
    291-316. *)
Definition sector_reader (files : list (Z * bytes)) (v : Z) : outcome ssr :=
  if negb ((v =? 4) || (v =? 5)) then Throw "Unsupported version"
  else match files with
       | [] => Throw "No files provided to SectorStreamReader!"
       | _ => Ok (mkSSR files files 0 [] v)
       end.

(** reset, reader.cpp:557-567: note that the cache is kept. *)
Definition sector_reset (s : ssr) : ssr :=
  mkSSR (ss_files s) (ss_files s) 0 (ss_cache s) (ss_version s).

(** One sector read from the file at hand, reader.cpp:434-469: the block if the
    frame is complete, the new cache and the rest of the file. *)
Definition absorb (g : geom) (v sector : Z) (rem : bytes) (cache : list (Z * frame))
  : outcome (option block * list (Z * frame) * bytes) :=
  let* (h, rem1) := sector_header rem in
  let pos := sh_pos h in
  let fr := match map_get pos cache with
            | Some f => if version (hdr (f_block f)) =? 0 then new_frame g v h else f
            | None => new_frame g v h
            end in
  let* d := block_data (f_block fr) in
  let* (d', rem2) := read_sector_data g v sector rem1 d in
  let fr' := mkFrame (mkBlock (hdr (f_block fr)) (Some d')) (f_count fr + 1) in
  if f_count fr' =? 4
  then Ok (Some (f_block fr'), map_erase pos cache, rem2)
  else Ok (None, map_put pos fr' cache, rem2).

Definition remove_nth {A} (i : nat) (l : list A) : list A := firstn i l ++ skipn (S i) l.

(** read, reader.cpp:418-489. *)
Fixpoint sector_read_f (g : geom) (fuel : nat) (s : ssr) : outcome block * ssr :=
  match fuel with
  | O => (OutOfFuel, s)
  | S f =>
    match ss_streams s with
    | [] =>                                                            (* :479-488 *)
        match ss_cache s with
        | (_, fr) :: t =>
            (Ok (f_block fr), mkSSR (ss_files s) [] (ss_it s) t (ss_version s))
        | [] => (Ok empty_block, s)
        end
    | _ =>
        match nth_error (ss_streams s) (ss_it s) with
        | None =>                                                      (* :474-476 *)
            sector_read_f g f (mkSSR (ss_files s) (ss_streams s) 0 (ss_cache s) (ss_version s))
        | Some (_, []) =>                                              (* :428-432 *)
            sector_read_f g f (mkSSR (ss_files s) (remove_nth (ss_it s) (ss_streams s))
                                     (ss_it s) (ss_cache s) (ss_version s))
        | Some (sector, rem) =>
            match absorb g (ss_version s) sector rem (ss_cache s) with
            | Ok (r, cache', rem') =>
                let s' := mkSSR (ss_files s) (upd (ss_streams s) (ss_it s) (sector, rem'))
                                (S (ss_it s)) cache' (ss_version s) in
                match r with
                | Some b => (Ok b, s')
                | None => sector_read_f g f s'
                end
            | Throw m => (Throw m, s)
            | UB m => (UB m, s)
            | OutOfFuel => (OutOfFuel, s)
            end
        end
    end
  end.

(** Bound for the number of loop iterations of one read(). *)
Definition sector_fuel (s : ssr) : nat :=
  (2 * (List.length (ss_streams s) +
        List.length (flat_map snd (ss_streams s))) + 3)%nat.

Definition sector_read (g : geom) (s : ssr) : outcome block * ssr :=
  sector_read_f g (sector_fuel s) s.

Fixpoint sector_reads (g : geom) (n : nat) (s : ssr) : list (outcome block) * ssr :=
  match n with
  | O => ([], s)
  | S m =>
      let '(r, s1) := sector_read g s in
      let '(rs, s2) := sector_reads g m s1 in
      (r :: rs, s2)
  end.

(** readAll with the functor of dataCaptured, reader.cpp:569-632: counts the
    headers and remembers the scan size of the last one; the data is skipped
    with seekg, which may move past the end of a cut file. *)
Fixpoint count_headers (fuel : nat) (g : geom) (v : Z) (rem : bytes) (acc : Z * (Z * Z))
  : outcome (Z * (Z * Z)) :=
  match fuel with
  | O => OutOfFuel
  | S f =>
    match rem with
    | [] => Ok acc
    | _ =>
        let* (h, rem1) := sector_header rem in
        count_headers f g v (skipn (Z.to_nat (sector_size g v * 2)) rem1)
                      (u64 (fst acc + 1), sh_dims h)
    end
  end.

Definition sector_count (g : geom) (v : Z) (files : list (Z * bytes)) : outcome (Z * (Z * Z)) :=
  for_each files (fun f acc => count_headers (S (List.length (snd f))) g v (snd f) acc)
           (0, (0, 0)).
