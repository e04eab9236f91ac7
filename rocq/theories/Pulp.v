(** console_demo/pulp2json.cpp: the program that shows a file as JSON. *)
From Verif Require Import Base Blob Json.

(** The files the program meets: what std::fstream{name} can read from a file (nothing if the file cannot
    be opened for reading and writing, the default mode), and what stat() says of its size (nothing if it
    fails).  Both can differ when somebody else writes the file.  console_demo/pulp2json.cpp:31-33, 46-55. *)
Record files : Type := mkFiles { opens : bytes -> option bytes; stats : bytes -> option Z }.

(** How the program ends, if it does in an orderly way: exit status, standard output, standard error.
    console_demo/pulp2json.cpp:42, 50, 62-64. *)
Record ending : Type := Exits { status : Z; out : bytes; err : bytes }.

(** console_demo/pulp2json.cpp:29-34. *)
Definition GetFileSize (fs : files) (filename : bytes) : Z :=
  match stats fs filename with Some n => n | None => -1 end.

(** std::vector<char> buffer(file_size, 0), console_demo/pulp2json.cpp:54: the long becomes a size_t; more
    than max_size() elements throw std::length_error, which nobody catches.  Lack of memory is not
    modelled. *)
Definition make_buffer (file_size : Z) : res bytes :=
  if u64 file_size <=? 2 ^ 63 - 1 then Ok (repeat x00 (Z.to_nat (u64 file_size))) else Abort.

(** f.read(&buffer[0], buffer.size()), console_demo/pulp2json.cpp:55: as many bytes as there are; the state
    of the stream is not looked at.  &buffer[0] of an empty vector is undefined. *)
Definition read_file (content buffer : bytes) : res bytes :=
  match buffer with
  | [] => UB
  | _ => let n := Nat.min (length buffer) (length content) in Ok (firstn n content ++ skipn n buffer)
  end.

(** What "%s" of console_demo/pulp2json.cpp:62 prints of s.c_str(): everything before the first NUL. *)
Fixpoint c_str (s : bytes) : bytes :=
  match s with
  | [] => []
  | c :: r => if bval c =? 0 then [] else c :: c_str r
  end.

(** A line feed. console_demo/pulp2json.cpp:41, 49, 62. *)
Definition nl : byte := x0a.

(** console_demo/pulp2json.cpp:36-64, main. *)
Definition pulp2json (fs : files) (argv : list bytes) : res ending :=
  match argv with
  | _ :: file_name :: _ =>
      match opens fs file_name with
      | None => Ok (Exits 1 [] (lit "Unable to open file '" ++ file_name ++ lit "'" ++ [nl]))
      | Some content =>
          let file_size := GetFileSize fs file_name in
          zeros <-- make_buffer file_size ;;
          buffer <-- read_file content zeros ;;
          s <-- fst (JSONExtractStr (newBlob buffer (Some 0) (zlen buffer))) ;;
          Ok (Exits 0 (c_str s ++ [nl]) [])
      end
  | _ => Ok (Exits 1 [] (lit "Please specify input file name as first argument" ++ [nl]))
  end.
