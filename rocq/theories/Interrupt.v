(** Model of the crash points of lib/sia/rust/cli/src/main.rs: the file systems a run of the tool can leave behind when the process is killed.
    Between two writes the file system is what the completed inputs made of it; while an output is written (main.rs:58-64: File::create empties
    the file, write_to fills it in any order) the output file holds arbitrary bytes.  Reading and computing change nothing.  A file system that
    loses completed writes on a power failure is not modelled. *)
From Verif Require Import Outcome Floats Bits Encoding Matrix Signature Process Image Cli.
Open Scope Z_scope.

Section Interrupt.
Context {F : Type} (O : FOps F) (K : ldpc) (E : ed25519) (equalize : list Z -> list Z)
  (features_of : array2 Z -> nat -> outcome (list F)) (checks : bool) (pad : list bool).
Context {format : Type} (os : platform format).
Local Notation prepare := (Cli.prepare O K E equalize features_of checks pad os).
Local Notation process_input := (Cli.process_input O K E equalize features_of checks pad os).

(** main.rs:31-73, stopped at some point *)
Inductive killed_inputs (suffix : list Z) (output_option : option (list Z)) : world -> list (list Z) -> world -> Prop :=
| killed_between w inputs : killed_inputs suffix output_option w inputs w
| killed_writing w input rest picture path partial :
    prepare w input suffix output_option = Ok (picture, path) -> can_create os path = true ->
    killed_inputs suffix output_option w (input :: rest) (put w (locate os path) partial)
| killed_later w input rest w1 w' :
    process_input w input suffix output_option = (w1, Done) -> killed_inputs suffix output_option w1 rest w' ->
    killed_inputs suffix output_option w (input :: rest) w'.

(** main.rs:16-76, stopped at some point *)
Inductive killed (suffix : list Z) (output_option : option (list Z)) : world -> list (list Z) -> world -> Prop :=
| killed_at_once w inputs : killed suffix output_option w inputs w
| killed_without_folder w inputs w' : output_option = None -> killed_inputs suffix None w inputs w' -> killed suffix output_option w inputs w'
| killed_with_folder w inputs output w' : output_option = Some output -> kind os output <> OtherKind -> can_make_folder os output = true ->
    killed_inputs suffix output_option (mkWorld (content w) (output :: folders_requested w)) inputs w' -> killed suffix output_option w inputs w'.
End Interrupt.
