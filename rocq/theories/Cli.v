(** Model of lib/sia/rust/cli/src/main.rs: the command line tool as a function on a file system.

    Paths and file names are byte strings (UTF-8, so `to_str().unwrap()` of a piece cut at an ASCII byte succeeds).
    The file system is a map from locations to contents; how a path string is resolved to a location, whether a folder or file
    can be created, and canonicalisation are oracles that do not depend on file contents.  Other processes do not interfere.
    Decoding and encoding of pictures are oracles.  Messages on the console are in Console.v and Diagnostics.v. *)
From Verif Require Import Outcome Floats Bits Encoding Matrix Signature Process Image.
Open Scope Z_scope.

(** ASCII codes of the characters the file names are taken apart at and put together with (lib/sia/rust/cli/src/main.rs:37-57). *)
Definition SLASH := 47. Definition DOT := 46. Definition HYPHEN := 45.

(** std::path::Path::components on Unix, restricted to what `file_name` needs: pieces between '/', without the empty ones and
    without "." (a leading "." is kept by std but is no file name either). *)
Fixpoint split_slash (l : list Z) : list (list Z) :=
  match l with
  | [] => [[]]
  | c :: t => if c =? SLASH then [] :: split_slash t
              else match split_slash t with h :: r => (c :: h) :: r | [] => [[c]] end
  end.
(** Equality of strings; std::path::Path::components. *)
Definition bytes_eqb (a b : list Z) : bool := if list_eq_dec Z.eq_dec a b then true else false.
Definition components (path : list Z) : list (list Z) :=
  filter (fun p => negb (bytes_eqb p [] || bytes_eqb p [DOT])) (split_slash path).
(** std::path::Path::file_name *)
Definition file_name (path : list Z) : option (list Z) :=
  match rev (components path) with
  | [] => None
  | name :: _ => if bytes_eqb name [DOT; DOT] then None else Some name
  end.
(** `rsplitn(2, '.')` *)
Fixpoint rsplit_dot (l : list Z) : option (list Z * list Z) :=
  match l with
  | [] => None
  | c :: t => match rsplit_dot t with
              | Some (b, a) => Some (c :: b, a)
              | None => if c =? DOT then Some ([], t) else None
              end
  end.
(** std::path::Path::file_stem *)
Definition file_stem (path : list Z) : option (list Z) :=
  match file_name path with
  | None => None
  | Some name => Some match rsplit_dot name with Some ([], _) => name | Some (before, _) => before | None => name end
  end.
(** std::path::Path::extension *)
Definition extension (path : list Z) : option (list Z) :=
  match file_name path with
  | None => None
  | Some name => match rsplit_dot name with Some ([], _) => None | Some (_, after) => Some after | None => None end
  end.

(** What lib/sia/rust/cli/src/main.rs:22 asks about the output folder: `is_dir()`, `exists()`. *)
Inductive folder_kind := Absent | Folder | OtherKind.
(** How a run ends. *)
Inductive ending := Done | Panicked (r : reason) | ExitCode (code : Z) | Unspecified.

(** The effects of a run: the content of the files (lib/sia/rust/cli/src/main.rs:56-60) and the folders that `create_dir_all` was asked for (line 26). *)
Record world := mkWorld { content : list Z -> option (list Z); folders_requested : list (list Z) }.
(** File::create followed by a complete write. *)
Definition put (w : world) (location data : list Z) : world :=
  mkWorld (fun l => if bytes_eqb l location then Some data else content w l) (folders_requested w).

(** The operating system and the `image` crate (oracles). *)
Record platform (format : Type) := mkPlatform {
  locate : list Z -> list Z;                           (* which file a path string designates *)
  kind : list Z -> folder_kind;                        (* Path::is_dir / Path::exists *)
  can_make_folder : list Z -> bool;                    (* fs::create_dir_all succeeds *)
  canonical : list Z -> option (list Z);               (* Path::canonicalize as a string *)
  can_create : list Z -> bool;                         (* File::create succeeds *)
  format_of_extension : list Z -> option format;       (* ImageFormat::from_extension *)
  decode_bytes : format -> list Z -> option dynimage;  (* image::load *)
  encode_bytes : format -> dynimage -> list Z * bool   (* DynamicImage::write_to: bytes that reached the file, success *)
}.
Arguments locate {format}. Arguments kind {format}. Arguments can_make_folder {format}. Arguments canonical {format}.
Arguments can_create {format}. Arguments format_of_extension {format}. Arguments decode_bytes {format}. Arguments encode_bytes {format}.

Section Cli.
Context {F : Type} (O : FOps F) (K : ldpc) (E : ed25519) (equalize : list Z -> list Z)
  (features_of : array2 Z -> nat -> outcome (list F)) (checks : bool) (pad : list bool).
Context {format : Type} (os : platform format).

(** `image::ImageFormat::from_path` (image 0.24): decided by the extension alone *)
Definition format_from_path (path : list Z) : option format :=
  match extension path with None => None | Some e => format_of_extension os e end.

(** `image::open` (image 0.24): open, choose the format by the extension, decode *)
Definition open_image (w : world) (path : list Z) : outcome dynimage :=
  match content w (locate os path) with
  | None => Panic UnwrapErr
  | Some bytes => match format_from_path path with
                  | None => Panic UnwrapErr
                  | Some fmt => match decode_bytes os fmt bytes with None => Panic UnwrapErr | Some i => Ok i end
                  end
  end.

(** main.rs:38-56: the picture to write and the path to write it to; no effect on the file system. *)
Definition prepare (w : world) (input suffix : list Z) (output_option : option (list Z)) : outcome (dynimage * list Z) :=
  input_image <- open_image w input ;;
  watermarked <- watermark_image O K E equalize features_of checks pad input_image (f_of_Z O 100) (f_of_Z O 1) 11 ;;
  filename <- unwrap (file_stem input) ;;
  ext <- unwrap (extension input) ;;
  let output_path := filename ++ [HYPHEN] ++ suffix ++ [DOT] ++ ext in
  match output_option with
  | None => Ok (watermarked, output_path)
  | Some output =>
      match canonical os output with
      | None => Panic UnwrapErr
      | Some folder => Ok (watermarked, folder ++ [SLASH] ++ output_path)
      end
  end.

(** main.rs:31-73: one turn of the loop.  `File::create` empties the file before the format is chosen and the picture written. *)
Definition process_input (w : world) (input suffix : list Z) (output_option : option (list Z)) : world * ending :=
  match prepare w input suffix output_option with
  | Panic r => (w, Panicked r)
  | Outside => (w, Unspecified)
  | Ok (watermarked, output_path) =>
      if can_create os output_path then
        let w1 := put w (locate os output_path) [] in
        match format_from_path output_path with
        | None => (w1, Panicked UnwrapErr)
        | Some fmt => let '(data, success) := encode_bytes os fmt watermarked in
                      (put w1 (locate os output_path) data, if success then Done else Panicked UnwrapErr)
        end
      else (w, Panicked UnwrapErr)
  end.

(** main.rs:31: `for input in inputs` *)
Fixpoint process_inputs (w : world) (inputs : list (list Z)) (suffix : list Z) (output_option : option (list Z)) : world * ending :=
  match inputs with
  | [] => (w, Done)
  | input :: rest => match process_input w input suffix output_option with
                     | (w', Done) => process_inputs w' rest suffix output_option
                     | stopped => stopped
                     end
  end.

(** main.rs:16-76 *)
Definition process (w : world) (inputs : list (list Z)) (suffix_option output_option : option (list Z)) : world * ending :=
  match suffix_option with
  | None => (w, Done)
  | Some suffix =>
      match output_option with
      | None => process_inputs w inputs suffix None
      | Some output =>
          match kind os output with
          | OtherKind => (w, ExitCode 1)
          | _ => let w' := mkWorld (content w) (output :: folders_requested w) in
                 if can_make_folder os output then process_inputs w' inputs suffix output_option
                 else (w', Panicked UnwrapErr)
          end
      end
  end.

(** What getopts returns (oracle): main.rs:90-95 *)
Record matches := mkMatches { opt_h : bool; opt_s : option (list Z); opt_o : option (list Z); free : list (list Z) }.

(** main.rs:83-110; [parsed] is None when getopts rejects the arguments.  Printing the usage has no modelled effect. *)
Definition main (w : world) (parsed : option matches) : world * ending :=
  match parsed with
  | None => (w, Panicked UnwrapErr)
  | Some m => if opt_h m then (w, Done)
              else match free m with [] => (w, Done) | _ => process w (free m) (opt_s m) (opt_o m) end
  end.
End Cli.
