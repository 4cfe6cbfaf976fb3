(** The pure-Rust LZ4 backend (feature `lz_pure`): model of
    src/compression/lz_pure.rs.  The lz-fear crate's frame format is a
    parameter. *)
From Verif Require Export Chunk.

(** lz_fear::framed: [fl_compress size b], what `CompressionSettings::compress`
    puts in the writer for the input [b] and what it returns;
    [fl_open c], `LZ4FrameReader::new` and, if it succeeds, what `into_read`
    yields. *)
Record frame_lib := FrameLib {
  fl_compress : Z -> bytes -> bytes * res unit;
  fl_open : bytes -> res stream
}.

(** src/compression/lz_pure.rs:18-33: each `write` compresses its whole buffer
    and accepts all of it, so `write_all` calls `write` once per non-empty slice.
    64-65: the block size is cast to usize. *)
Fixpoint lz_writes (F : frame_lib) (size : Z) (ws : list bytes) : bytes * res unit :=
  match ws with
  | [] => ([], Ok tt)
  | w :: ws' =>
      match fl_compress F (size mod two64) w with
      | (out, Ok _) => let '(out', r) := lz_writes F size ws' in (out ++ out', r)
      | (out, r) => (out, r)
      end
  end.

(** src/compression/lz_pure.rs:54-70 (`expect` at 58); the other compressors are
    those of [C]. *)
Definition lz_pure_codec (F : frame_lib) (C : codec) : codec :=
  Codec
    (fun c ws => match c with CLz4 size => lz_writes F size ws | _ => c_enc C c ws end)
    (fun c b => match c with
                | CLz4 _ => match fl_open F b with Ok s => Ok s | _ => Panic end
                | _ => c_dec C c b
                end).
