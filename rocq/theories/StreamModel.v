(** Model of StreamReader (stempy/reader.cpp:55-276, stempy/reader.h:90-193):
    decoding of a list of files in the formats of version 1, 2 and 3, and of
    the block iterator. *)
From Coq Require Import String ZArith List Bool.
From Verif Require Import Base BlockModel.
Import ListNotations.
Open Scope Z_scope.

(** A file: [None] when std::ifstream cannot open it.  File contents do not
    change while the reader exists (simplification). *)
Definition bytes := list Z.
Definition file := option bytes.

(** reader.cpp:42 *)
Definition FRAME_W : Z := 576.
Definition FRAME_H : Z := 576.

(** Little-endian value of consecutive bytes: what reinterpret_cast<char*>
    into an integer array gives on the little-endian hosts stempy supports. *)
Fixpoint le (l : bytes) : Z :=
  match l with [] => 0 | b :: t => b + 256 * le t end.

Fixpoint words (n k : nat) (l : bytes) : list Z :=
  match n with
  | O => []
  | S m => le (firstn k l) :: words m k (skipn k l)
  end.

(** Fields of StreamReader (reader.h:166-170): m_files, m_curFileIndex,
    m_stream ([None]: no open file; [Some l]: open, [l] not yet consumed) and
    m_version.  The stream's eof and fail bits need no field: whenever
    they are set, the code closes the stream, and open() clears them. *)
Record sr := mkSR {
  sr_files : list file;
  sr_idx : nat;
  sr_cur : option bytes;
  sr_version : Z
}.

(** reader.h:175 atEnd *)
Definition at_end (s : sr) : bool :=
  (List.length (sr_files s) <=? sr_idx s)%nat.

Definition eof_exception : string := "EofException".

(** reader.cpp:69-92 openNextFile *)
Definition close_cur (s : sr) : sr :=
  match sr_cur s with
  | Some _ => mkSR (sr_files s) (S (sr_idx s)) None (sr_version s)
  | None => s
  end.

Definition open_next (s : sr) : outcome bool * sr :=
  let s1 := close_cur s in
  if at_end s1 then (Ok false, s1)
  else match nth_error (sr_files s1) (sr_idx s1) with
       | Some (Some b) =>
           (Ok true, mkSR (sr_files s1) (sr_idx s1) (Some b) (sr_version s1))
       | _ => (Throw "Unable to open file", s1)
       end.

(** reader.cpp:55-67 constructor *)
Definition stream_reader (files : list file) (v : Z) : outcome sr :=
  match files with
  | [] => Throw "No files provided to StreamReader!"
  | _ =>
      match open_next (mkSR files 0 None v) with
      | (Ok _, s) => Ok s
      | (Throw m, _) => Throw m
      | (UB m, _) => UB m
      | (OutOfFuel, _) => OutOfFuel
      end
  end.

(** reader.cpp:106-122 read(T*, size): [size] bytes of the current file, or,
    if it has fewer left, of the next file that has enough; the shorter tails
    are dropped.  The C++ recursion is bounded by [fuel]. *)
Fixpoint read_raw (fuel : nat) (size : Z) (s : sr) : outcome bytes * sr :=
  match fuel with
  | O => (OutOfFuel, s)
  | S f =>
      if at_end s then (Throw eof_exception, s)
      else
        let retry :=
          match open_next s with
          | (Ok _, s') => read_raw f size s'
          | (Throw m, s') => (Throw m, s')
          | (UB m, s') => (UB m, s')
          | (OutOfFuel, s') => (OutOfFuel, s')
          end in
        match sr_cur s with
        | Some b =>
            if size <=? Zlen b then
              (Ok (firstn (Z.to_nat size) b),
               mkSR (sr_files s) (sr_idx s) (Some (skipn (Z.to_nat size) b))
                    (sr_version s))
            else retry
        | None => retry
        end
  end.

Definition read_fuel (s : sr) : nat :=
  S (S (List.length (sr_files s) + List.length (sr_files s))).

(** Sequencing of state-changing steps; an exception keeps the state reached. *)
Definition sbind {A B} (m : outcome A * sr) (k : A -> sr -> outcome B * sr)
  : outcome B * sr :=
  match m with
  | (Ok a, s) => k a s
  | (Throw e, s) => (Throw e, s)
  | (UB e, s) => (UB e, s)
  | (OutOfFuel, s) => (OutOfFuel, s)
  end.

Definition read_bytes (size : Z) (s : sr) : outcome bytes * sr :=
  read_raw (read_fuel s) size s.

(** reader.cpp:124-154 readHeaderVersion1 *)
Definition header_v1 (raw : bytes) : outcome header :=
  let w := words 1024 4 raw in
  let* n := rd w 0 in
  let* fh := rd w 1 in
  let* fw := rd w 2 in
  let* ver := rd w 3 in
  let* ts := rd w 4 in
  (* std::copy of headerData[10 .. 10 + imagesInBlock) *)
  let* nums := for_loop n (fun i acc =>
                 let* x := rd w (10 + i) in Ok (acc ++ [u32 (x - 1)])) [] in
  Ok (mkHeader (0, 0) (fw, fh) n ver ts 0 0 nums []).

Definition read_header_v1 (s : sr) : outcome header * sr :=
  sbind (read_bytes 4096 s) (fun raw s1 => (header_v1 raw, s1)).

(** reader.cpp:156-178 readHeaderVersion2 *)
Definition header_v2 : header :=
  mkHeader (0, 0) (FRAME_W, FRAME_H) 1600 2 0 0 0 (zseq 1600) [].

Definition read_header_v2 (s : sr) : outcome header * sr :=
  sbind (read_bytes 4 s) (fun _ s1 => (Ok header_v2, s1)).

(** reader.cpp:188-220 readHeaderVersion3 *)
Definition header_v3 (raw1 raw2 : bytes) : outcome header :=
  let a := words 2 4 raw1 in
  let p := words 4 2 raw2 in
  let* scan := rd a 0 in
  let* frame := rd a 1 in
  let* sw := rd p 0 in
  let* sh := rd p 1 in
  let* x := rd p 2 in
  let* y := rd p 3 in
  Ok (mkHeader (sw, sh) (FRAME_W, FRAME_H) 1 3 0 frame scan
               [u32 (u32 (y * sw) + x)] []).

Definition read_header_v3 (s : sr) : outcome header * sr :=
  sbind (read_bytes 8 s) (fun raw1 s1 =>
  sbind (read_bytes 8 s1) (fun raw2 s2 => (header_v3 raw1 raw2, s2))).

(** reader.cpp:239-256: the switch on m_version. *)
Definition read_header (s : sr) : outcome header * sr :=
  if sr_version s =? 1 then read_header_v1 s
  else if sr_version s =? 2 then read_header_v2 s
  else if sr_version s =? 3 then read_header_v3 s
  else (Throw "Unexpected version", s).

(** reader.cpp:48-53 and 260-261: the number of pixels, a uint32_t product. *)
Definition data_size (h : header) : Z :=
  u32 (u32 (fst (frame_dims h) * snd (frame_dims h)) * images_in_block h).

(** reader.cpp:237-267: the try block. *)
Definition catch_eof {A} (m : outcome A * sr) : outcome A * sr :=
  match m with
  | (Throw e, s) =>
      if String.eqb e eof_exception
      then (Throw "Unexpected EOF while processing stream.", s)
      else (Throw e, s)
  | r => r
  end.

Definition read_record (s : sr) : outcome block * sr :=
  catch_eof
    (sbind (read_header s) (fun h s1 =>
     sbind (read_bytes (data_size h * 2) s1) (fun raw s2 =>
       (Ok (mkBlock h (Some (words (Z.to_nat (data_size h)) 2 raw))), s2)))).

(** reader.cpp:222-268 StreamReader::read *)
Fixpoint read_block_f (fuel : nat) (s : sr) : outcome block * sr :=
  match fuel with
  | O => (OutOfFuel, s)
  | S f =>
      if at_end s then (Ok empty_block, s)
      else match sr_cur s with
           | Some (_ :: _) => read_record s
           | _ => sbind (open_next s) (fun _ s' => read_block_f f s')
           end
  end.

Definition read_block (s : sr) : outcome block * sr :=
  read_block_f (read_fuel s) s.

(** reader.cpp:270-276 reset *)
Definition reset (s : sr) : sr := mkSR (sr_files s) 0 None (sr_version s).

(** [n] successive calls of read(); an exception does not prevent the caller
    from calling again. *)
Fixpoint reads (n : nat) (s : sr) : list (outcome block) * sr :=
  match n with
  | O => ([], s)
  | S m =>
      let '(r, s1) := read_block s in
      let '(rs, s2) := reads m s1 in
      (r :: rs, s2)
  end.

(** What a caller can do with a reader, and the state it leaves. *)
Inductive sr_op := OpRead | OpReset.

Fixpoint sr_run (ops : list sr_op) (s : sr) : sr :=
  match ops with
  | [] => s
  | OpRead :: t => sr_run t (snd (read_block s))
  | OpReset :: t => sr_run t (reset s)
  end.

(** reader.h:90-148 and the loop [for (auto it = r.begin(); it != r.end();
    ++it) visit the block]: the blocks visited.  A block without data ends it. *)
Fixpoint iterate (fuel : nat) (s : sr) : outcome (list block) * sr :=
  match fuel with
  | O => (OutOfFuel, s)
  | S f =>
      sbind (read_block s) (fun b s1 =>
        match data b with
        | None => (Ok [], s1)
        | Some _ => sbind (iterate f s1) (fun bs s2 => (Ok (b :: bs), s2))
        end)
  end.
