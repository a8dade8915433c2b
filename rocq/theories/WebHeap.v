(** Model of the objects the library hands to JavaScript: lib/sia/rust/web/src/image_model.rs and watermarking_process.rs as wasm-bindgen
    exports them, and src/Content/utils.ts:33-49.  Handles are numbers; Uint8Arrays live in JavaScript and are shared by reference. *)
From Verif Require Import Outcome Floats Bits Encoding Matrix Signature Process Image Web.
Open Scope Z_scope.

(** lib/sia/rust/web/src/image_model.rs:6-10; [data] is a reference to a Uint8Array.  Clone copies the reference. *)
Record model_object := mkModelObject { m_width : Z; m_height : Z; m_data : nat }.
(** lib/sia/rust/web/src/watermarking_process.rs:6-13 *)
Record process_object := mkProcessObject { p_format : list Z; p_source : model_object; p_watermarked : model_object }.

(** Everything reachable from JavaScript.  An object passed to Rust by value, or freed, leaves [None] behind its handle (wasm-bindgen nulls
    the pointer). *)
Record heap := mkHeap { arrays : list (list Z); models : list (option model_object); processes : list (option process_object) }.
(** The page before any call. *)
Definition empty_heap : heap := mkHeap [] [] [].

Inductive op :=
| NewArray (content : list Z)                  (* new Uint8Array([...]) *)
| WriteArray (a i : nat) (v : Z)               (* a[i] = v *)
| ReadArray (a : nat)                          (* the bytes of a *)
| SliceArray (a : nat)                         (* a.slice() *)
| NewModel (width height : Z) (a : nat)        (* image_model.rs:14-21 *)
| GetWidth (m : nat)                           (* image_model.rs:23-25 *)
| SetWidth (m : nat) (width : Z)               (* image_model.rs:27-29 *)
| GetHeight (m : nat)                          (* image_model.rs:31-33 *)
| SetHeight (m : nat) (height : Z)             (* image_model.rs:35-37 *)
| GetData (m : nat)                            (* image_model.rs:39-41 *)
| SetData (m a : nat)                          (* image_model.rs:43-45 *)
| FreeModel (m : nat)                          (* wasm-bindgen free() *)
| NewProcess (format : list Z) (source watermarked : nat)   (* watermarking_process.rs:17-28 *)
| GetFormat (p : nat)                          (* watermarking_process.rs:30-32 *)
| SetFormat (p : nat) (format : list Z)        (* watermarking_process.rs:34-36 *)
| GetSource (p : nat)                          (* watermarking_process.rs:38-40 *)
| SetSource (p m : nat)                        (* watermarking_process.rs:42-44 *)
| GetWatermarked (p : nat)                     (* watermarking_process.rs:46-48 *)
| SetWatermarked (p m : nat)                   (* watermarking_process.rs:50-52 *)
| FreeProcess (p : nat)                        (* wasm-bindgen free() *)
| Deliver (r : watermarking_process (list Z)). (* get_watermarking_process returns (web/src/lib.rs:18-58): two new arrays *)

(** What a call returns to JavaScript. *)
Inductive answer :=
| Throws                  (* "null pointer passed to rust", TypeError *)
| Undefined
| Number (z : Z)
| Text (s : list Z)
| Array (a : nat)
| Bytes (l : list Z)
| Model (m : nat)
| Process (p : nat).

(** JavaScript numbers become u32 modulo 2^32. *)
Definition u32 (z : Z) : Z := z mod 2 ^ 32.
(** Numbers written to a Uint8Array are taken modulo 256. *)
Definition byte_of (z : Z) : Z := z mod 256.

(** Replace one element of a list; the object behind a handle, if it is still there. *)
Fixpoint update {A} (l : list A) (i : nat) (x : A) : list A :=
  match l, i with
  | [], _ => []
  | _ :: t, O => x :: t
  | y :: t, S k => y :: update t k x
  end.
Definition live {A} (l : list (option A)) (i : nat) : option A := match nth_error l i with Some (Some x) => Some x | _ => None end.

(** Bookkeeping: the heap with other arrays, models or processes. *)
Definition set_arrays (h : heap) (x : list (list Z)) : heap := mkHeap x (models h) (processes h).
Definition set_models (h : heap) (x : list (option model_object)) : heap := mkHeap (arrays h) x (processes h).
Definition set_processes (h : heap) (x : list (option process_object)) : heap := mkHeap (arrays h) (models h) x.
(** The pointer behind the handle is nulled before the call. *)
Definition consume (h : heap) (m : nat) : heap := set_models h (update (models h) m None).
(** Bookkeeping: a new array, model or process; another value behind a handle. *)
Definition add_array (h : heap) (l : list Z) : heap := set_arrays h (arrays h ++ [l]).
Definition add_model (h : heap) (o : model_object) : heap := set_models h (models h ++ [Some o]).
Definition add_process (h : heap) (o : process_object) : heap := set_processes h (processes h ++ [Some o]).
Definition put_model (h : heap) (m : nat) (o : model_object) : heap := set_models h (update (models h) m (Some o)).
Definition put_process (h : heap) (p : nat) (o : process_object) : heap := set_processes h (update (processes h) p (Some o)).

(** lib/sia/rust/web/src/image_model.rs:14-45, watermarking_process.rs:17-52 and web/src/lib.rs:18-58, see the lines at each operation of [op]. *)
Definition call (h : heap) (o : op) : heap * answer :=
  match o with
  | NewArray l => (add_array h (map byte_of l), Array (length (arrays h)))
  | WriteArray a i v => match nth_error (arrays h) a with
      | Some l => (set_arrays h (update (arrays h) a (update l i (byte_of v))), Undefined) | None => (h, Throws) end
  | ReadArray a => match nth_error (arrays h) a with Some l => (h, Bytes l) | None => (h, Throws) end
  | SliceArray a => match nth_error (arrays h) a with Some l => (add_array h l, Array (length (arrays h))) | None => (h, Throws) end
  | NewModel w ht a => match nth_error (arrays h) a with
      | Some _ => (add_model h (mkModelObject (u32 w) (u32 ht) a), Model (length (models h))) | None => (h, Throws) end
  | GetWidth m => match live (models h) m with Some x => (h, Number (m_width x)) | None => (h, Throws) end
  | SetWidth m w => match live (models h) m with
      | Some x => (put_model h m (mkModelObject (u32 w) (m_height x) (m_data x)), Undefined) | None => (h, Throws) end
  | GetHeight m => match live (models h) m with Some x => (h, Number (m_height x)) | None => (h, Throws) end
  | SetHeight m v => match live (models h) m with
      | Some x => (put_model h m (mkModelObject (m_width x) (u32 v) (m_data x)), Undefined) | None => (h, Throws) end
  | GetData m => match live (models h) m with Some x => (h, Array (m_data x)) | None => (h, Throws) end
  | SetData m a => match live (models h) m, nth_error (arrays h) a with
      | Some x, Some _ => (put_model h m (mkModelObject (m_width x) (m_height x) a), Undefined) | _, _ => (h, Throws) end
  | FreeModel m => match live (models h) m with Some _ => (consume h m, Undefined) | None => (h, Throws) end
  | NewProcess f s w =>
      let h' := consume (consume h s) w in
      match live (models h) s, live (models (consume h s)) w with
      | Some x, Some y => (add_process h' (mkProcessObject f x y), Process (length (processes h)))
      | _, _ => (h', Throws) end
  | GetFormat p => match live (processes h) p with Some x => (h, Text (p_format x)) | None => (h, Throws) end
  | SetFormat p f => match live (processes h) p with
      | Some x => (put_process h p (mkProcessObject f (p_source x) (p_watermarked x)), Undefined) | None => (h, Throws) end
  | GetSource p => match live (processes h) p with
      | Some x => (add_model h (p_source x), Model (length (models h))) | None => (h, Throws) end
  | SetSource p m =>
      let h' := consume h m in
      match live (processes h) p, live (models h) m with
      | Some x, Some y => (put_process h' p (mkProcessObject (p_format x) y (p_watermarked x)), Undefined)
      | _, _ => (h', Throws) end
  | GetWatermarked p => match live (processes h) p with
      | Some x => (add_model h (p_watermarked x), Model (length (models h))) | None => (h, Throws) end
  | SetWatermarked p m =>
      let h' := consume h m in
      match live (processes h) p, live (models h) m with
      | Some x, Some y => (put_process h' p (mkProcessObject (p_format x) (p_source x) y), Undefined)
      | _, _ => (h', Throws) end
  | FreeProcess p => match live (processes h) p with Some _ => (set_processes h (update (processes h) p None), Undefined) | None => (h, Throws) end
  | Deliver r =>
      let a := length (arrays h) in
      let object (m : image_model) (data : nat) := mkModelObject (u32 (Z.of_nat (model_width m))) (u32 (Z.of_nat (model_height m))) data in
      let h' := set_arrays h (arrays h ++ [map byte_of (model_data (source_model r)); map byte_of (model_data (watermarked_model r))]) in
      (add_process h' (mkProcessObject (source_format r) (object (source_model r) a) (object (watermarked_model r) (S a))), Process (length (processes h)))
  end.

(** A whole program: the operations in order, and the answers. *)
Fixpoint calls_of (h : heap) (os : list op) : heap * list answer :=
  match os with
  | [] => (h, [])
  | o :: t => let '(h1, a) := call h o in let '(h2, r) := calls_of h1 t in (h2, a :: r)
  end.
Definition after (os : list op) : heap := fst (calls_of empty_heap os).
(** The answer to [o] after the operations [os]. *)
Definition answer_after (os : list op) (o : op) : answer := snd (call (after os) o).

(** ** src/Content/utils.ts:33-49: plain objects with a copy of the bytes *)
Record plain_model := mkPlain { plain_width : Z; plain_height : Z; plain_data : nat }.
(** src/Content/utils.ts:33-39 *)
Definition to_image_model (h : heap) (m : nat) : option (heap * plain_model) :=
  match call h (GetWidth m), call h (GetHeight m), call h (GetData m) with
  | (_, Number w), (_, Number ht), (_, Array a) =>
      match call h (SliceArray a) with (h', Array b) => Some (h', mkPlain w ht b) | _ => None end
  | _, _, _ => None
  end.
(** src/Content/utils.ts:41-49 *)
Definition to_watermarking_process (h : heap) (p : nat) : option (heap * (list Z * plain_model * plain_model)) :=
  match call h (GetFormat p), call h (GetSource p) with
  | (_, Text f), (h1, Model ms) =>
      match to_image_model h1 ms with
      | Some (h2, s) =>
          match call h2 (GetWatermarked p) with
          | (h3, Model mw) => match to_image_model h3 mw with Some (h4, w) => Some (h4, (f, s, w)) | None => None end
          | _ => None end
      | None => None end
  | _, _ => None
  end.
