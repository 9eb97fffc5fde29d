(** Saving results to a file (distbench_utils.cc:402-430) down to the writes to
    the device.  Definitions only. *)
From Coq Require Import List Bool Arith.
From Verif Require Import Base_Model.
Import ListNotations.
Open Scope nat_scope.

(** A file being written: what is in it, and how many more bytes the device will
    take before write() fails (None: it never does). *)
Record sink := mkSink { k_content : str; k_room : option nat }.
Definition accept (room : option nat) (d : str) : str := match room with None => d | Some n => firstn n d end.
Definition fits (room : option nat) (d : str) : bool := match room with None => true | Some n => length d <=? n end.
(** google::protobuf::io::CopyingFileOutputStream::Write and write() of
    libstdc++ repeat until all is written or there is an error. *)
Definition sink_write (s : sink) (d : str) : sink * bool :=
  (mkSink (k_content s ++ accept (k_room s) d) (match k_room s with None => None | Some n => Some (n - length d) end), fits (k_room s) d).

(** CopyingOutputStreamAdaptor of protobuf: bytes are gathered in a block, which
    is written when it is full and more is to come; what is left in the block at
    the end is returned, None if a write failed. *)
Section Adaptor.
  Context {S : Type}.
  Variables (wr : S -> str -> S * bool) (block : nat).
  Fixpoint adapt (buf data : str) (s : S) : S * option str :=
    match data with
    | [] => (s, Some buf)
    | b :: r => if length buf =? block
                then match wr s buf with
                     | (s', true) => adapt [b] r s'
                     | (s', false) => (s', None)
                     end
                else adapt (buf ++ [b]) r s
    end.
End Adaptor.

(** The files, the room on the device, the number of open descriptors. *)
Record fs := mkFs { f_files : str -> option str; f_room : option nat; f_fds : nat }.
Definition put_file (name contents : str) (f : str -> option str) : str -> option str := fun n => if str_eqb n name then Some contents else f n.

Section Save.
  (** Which files can be opened for writing; the block size of protobuf streams,
      the size of the buffer of std::filebuf. *)
  Variables (openable : str -> bool) (block filebuf : nat).

  (** 403-419: SaveResultProtoToFile of results whose text form is [data].  The
      destructor of FileOutputStream writes the last block without a check and
      does not close the descriptor. *)
  Definition save_text (name data : str) (f : fs) : bool * fs :=
    if openable name
    then match adapt sink_write block [] data (mkSink [] (f_room f)) with
         | (s, None) => (false, mkFs (put_file name (k_content s) (f_files f)) (k_room s) (f_fds f + 1))
         | (s, Some buf) => let s' := fst (sink_write s buf) in (true, mkFs (put_file name (k_content s') (f_files f)) (k_room s') (f_fds f + 1))
         end
    else (false, f).

  (** std::fstream: the file, the bytes held in the buffer, good(), and whether
      the next writes are held as far as the buffer goes. *)
  Record ostream := mkOs { o_file : sink; o_held : str; o_good : bool; o_holds : list bool }.
  Definition o_write (o : ostream) (d : str) : ostream * bool :=
    if o_good o
    then let t := o_held o ++ d in
         if hd false (o_holds o) && (length t <=? filebuf)
         then (mkOs (o_file o) t true (tl (o_holds o)), true)
         else let '(s, ok) := sink_write (o_file o) t in (mkOs s [] ok (tl (o_holds o)), ok)
    else (o, false).
  (** The destructor: what is held is written without a check, the file closed. *)
  Definition o_close (o : ostream) : sink := fst (sink_write (o_file o) (o_held o)).
  (** 421-430: SaveResultProtoToFileBinary; [data]: None if the results are too
      large for SerializeToOstream, which otherwise writes them, flushes its
      block and returns good(). *)
  Definition save_binary (name : str) (data : option str) (holds : list bool) (f : fs) : bool * fs :=
    if openable name
    then let o := mkOs (mkSink [] (f_room f)) [] true holds in
         let '(o', ok) :=
           match data with
           | None => (o, false)
           | Some d => match adapt o_write block [] d o with
                       | (o1, None) => (o1, false)
                       | (o1, Some buf) => o_write o1 buf
                       end
           end in
         let s := o_close o' in (ok, mkFs (put_file name (k_content s) (f_files f)) (k_room s) (f_fds f))
    else (false, f).
End Save.
