(** Model of what the command line tool itself prints: lib/sia/rust/cli/src/main.rs:16-110 (the library's own diagnostics, printed in between, are in
    Diagnostics.v).
    The text of the usage screen below its first line is laid out by getopts and is not modelled; neither is the text of panics. *)
From Coq Require Import String Ascii.
From Verif Require Import Outcome Floats Bits Encoding Matrix Signature Process Image Cli Getopts Timer.
Open Scope Z_scope.

(** A string literal as bytes; the newline `println!` appends. *)
Fixpoint bytes_of_string (s : string) : list Z :=
  match s with EmptyString => [] | String c t => Z.of_N (N_of_ascii c) :: bytes_of_string t end.
Definition newline : list Z := [10].

(** image 0.24 `color().channel_count()`: L8, L16 1; La8, La16 2; Rgb8, Rgb16, Rgb32F 3; Rgba8, Rgba16, Rgba32F 4 *)
Definition channel_count (i : dynimage) : Z := (if has_color i then 3 else 1) + (if has_alpha i then 1 else 0).

(** main.rs:66-72 `println!("Watermarked {} ({} -> {} channels) in {}", ..)` *)
Definition watermarked_line (output_path : list Z) (before after : Z) (elapsed : Z * Z) : list Z :=
  bytes_of_string "Watermarked " ++ output_path ++ bytes_of_string " (" ++ bytes_of_string (show before) ++ bytes_of_string " -> "
  ++ bytes_of_string (show after) ++ bytes_of_string " channels) in " ++ bytes_of_string (fmt_elapsed (fst elapsed) (snd elapsed)) ++ newline.
(** main.rs:24 *)
Definition no_folder_line (output : list Z) : list Z := output ++ bytes_of_string " is not a folder" ++ newline.
(** main.rs:75 *)
Definition no_output_line : list Z := bytes_of_string "No output image" ++ newline.
(** main.rs:79-80: the first line of the usage screen; [layout] is what getopts makes of it *)
Definition usage_brief (program : list Z) : list Z := bytes_of_string "Usage: " ++ program ++ bytes_of_string " FILE [options]".

Section Console.
Context {F : Type} (O : FOps F) (K : ldpc) (E : ed25519) (equalize : list Z -> list Z)
  (features_of : array2 Z -> nat -> outcome (list F)) (checks : bool) (pad : list bool).
Context {format : Type} (os : platform format) (layout : list Z -> list Z).
(** how long each input takes: seconds and nanoseconds, by the inputs that are left (any clock) *)
Context (clock : list (list Z) -> Z * Z).

(** main.rs:31-73: what one turn of the loop prints itself: nothing unless it gets to its end *)
Definition lines_of_input (w : world) (input suffix : list Z) (output_option : option (list Z)) (elapsed : Z * Z) : list Z :=
  match open_image os w input, prepare O K E equalize features_of checks pad os w input suffix output_option,
        process_input O K E equalize features_of checks pad os w input suffix output_option with
  | Ok input_image, Ok (watermarked, output_path), (_, Done) => watermarked_line output_path (channel_count input_image) (channel_count watermarked) elapsed
  | _, _, _ => []
  end.
(** main.rs:31 *)
Fixpoint lines_of_inputs (w : world) (inputs : list (list Z)) (suffix : list Z) (output_option : option (list Z)) : list Z :=
  match inputs with
  | [] => []
  | input :: rest => lines_of_input w input suffix output_option (clock inputs) ++
                     match process_input O K E equalize features_of checks pad os w input suffix output_option with
                     | (w', Done) => lines_of_inputs w' rest suffix output_option
                     | _ => []
                     end
  end.
(** main.rs:16-77 *)
Definition printed_by_process (w : world) (inputs : list (list Z)) (suffix_option output_option : option (list Z)) : list Z :=
  match suffix_option with
  | None => no_output_line
  | Some suffix =>
      match output_option with
      | None => lines_of_inputs w inputs suffix None
      | Some output =>
          match kind os output with
          | OtherKind => no_folder_line output
          | _ => if can_make_folder os output then lines_of_inputs (mkWorld (content w) (output :: folders_requested w)) inputs suffix output_option else []
          end
      end
  end.
(** main.rs:83-110 *)
Definition printed (w : world) (argv : list (list Z)) : list Z :=
  match argv with
  | [] => []
  | program :: args =>
      match parse args with
      | None => []
      | Some m => if opt_h m then layout (usage_brief program)
                  else match free m with [] => layout (usage_brief program) | _ => printed_by_process w (free m) (opt_s m) (opt_o m) end
      end
  end.
End Console.
