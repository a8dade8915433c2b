(** Model of the web page: src/Content/utils.ts, src/Content/Content.tsx, src/Canvas/Canvas.tsx.  Strings are lists of code units.
    A JavaScript function that throws returns [None].  The look of the page, the network and the browser's FileReader are environment. *)
From Coq Require Import String Ascii.
From Verif Require Import Outcome Bits.
Open Scope Z_scope.

(** Code units of a literal (modelling convention). *)
Definition str (s : string) : list Z := map (fun c => Z.of_nat (nat_of_ascii c)) (list_ascii_of_string s).

(** ** Base64 (WHATWG "forgiving-base64 decode", which `atob` in src/Content/utils.ts:27-28 is defined by) *)
Definition value64 (c : Z) : option Z :=
  if (65 <=? c) && (c <=? 90) then Some (c - 65)          (* A-Z *)
  else if (97 <=? c) && (c <=? 122) then Some (c - 71)    (* a-z *)
  else if (48 <=? c) && (c <=? 57) then Some (c + 4)      (* 0-9 *)
  else if c =? 43 then Some 62 else if c =? 47 then Some 63 else None.   (* + / *)
Definition white (c : Z) : bool := (c =? 9) || (c =? 10) || (c =? 12) || (c =? 13) || (c =? 32).
Fixpoint all_some {A B} (f : A -> option B) (l : list A) : option (list B) :=
  match l with
  | [] => Some []
  | a :: t => match f a, all_some f t with Some b, Some bs => Some (b :: bs) | _, _ => None end
  end.
(** Drop one '=' at the end, if there is one. *)
Definition drop_eq (s : list Z) : list Z := match rev s with 61 :: r => rev r | _ => s end.
(** Six bits per digit, most significant first; spare bits are discarded. *)
Fixpoint pack64 (ds : list Z) : list Z :=
  match ds with
  | a :: b :: c :: d :: t => (a * 4 + b / 16) :: (b mod 16 * 16 + c / 4) :: (c mod 4 * 64 + d) :: pack64 t
  | [a; b; c] => [a * 4 + b / 16; b mod 16 * 16 + c / 4]
  | [a; b] => [a * 4 + b / 16]
  | _ => []
  end.
(** The browser's atob (src/Content/utils.ts:27-28), by its specification. *)
Definition atob (text : list Z) : option (list Z) :=
  let data := filter (fun c => negb (white c)) text in
  let data := if (List.length data mod 4 =? 0)%nat then drop_eq (drop_eq data) else data in
  if (List.length data mod 4 =? 1)%nat then None
  else match all_some value64 data with Some ds => Some (pack64 ds) | None => None end.

(** ** src/Content/utils.ts *)
Definition alphanumeric (c : Z) : bool := ((97 <=? c) && (c <=? 122)) || ((65 <=? c) && (c <=? 90)) || ((48 <=? c) && (c <=? 57)).
(** For the regular expression of src/Content/utils.ts:8: the literal parts, and the longest run of characters of a class. *)
Fixpoint strip_prefix (p s : list Z) : option (list Z) :=
  match p, s with
  | [], _ => Some s
  | a :: p', b :: s' => if a =? b then strip_prefix p' s' else None
  | _ :: _, [] => None
  end.
Fixpoint span (f : Z -> bool) (s : list Z) : list Z * list Z :=
  match s with
  | a :: t => if f a then let '(x, y) := span f t in (a :: x, y) else ([], s)
  | [] => ([], [])
  end.
(** src/Content/utils.ts:8-10: `replace(/^data:image\/[a-zA-Z0-9]+;base64,/, '')`.  The class does not contain ';', so the longest run of
    letters and digits is the only candidate. *)
Definition remove_mime (data_uri : list Z) : list Z :=
  match strip_prefix (str "data:image/") data_uri with
  | None => data_uri
  | Some rest =>
      match span alphanumeric rest with
      | ([], _) => data_uri
      | (_, rest') => match strip_prefix (str ";base64,") rest' with Some payload => payload | None => data_uri end
      end
  end.
(** src/Content/utils.ts:27-31; `atob` yields code units below 256, `charCodeAt(0)` and `Uint8Array.from` keep them *)
Definition base64_to_uint8_array (data_uri : list Z) : option (list Z) := atob (remove_mime data_uri).
(** src/Content/utils.ts:51-57, given what FileReader.readAsDataURL produced *)
Definition file_to_base64 (reader_result : list Z) : list Z := remove_mime reader_result.

(** ** src/Canvas/Canvas.tsx:19-26: createImageData(width, height), data.set(data, 0), putImageData: the bytes drawn *)
Definition canvas_bytes (width height : nat) (data : list Z) : option (list Z) :=
  if ((width =? 0) || (height =? 0))%nat then None                     (* IndexSizeError *)
  else if (4 * (width * height) <? List.length data)%nat then None     (* RangeError *)
  else Some (data ++ repeat 0 (4 * (width * height) - List.length data)).

(** ** src/Content/Content.tsx *)
Section Page.
(** [library bytes] is get_watermarking_process at depth 500.0 and step 1.0 followed by toWatermarkingProcess (Content.tsx:12-23,
    utils.ts:59-70); None when it throws (a panic of the library is a RuntimeError). *)
Context {P : Type} (library : list Z -> option P).

(** A selected file: what FileReader.readAsDataURL will make of it. *)
Definition file := list Z.

Record page := mkPage {
  wasm_ready : bool;                 (* some init() has resolved *)
  inits : nat;                       (* init() promises outstanding *)
  defaults : nat;                    (* loads of the built-in picture outstanding *)
  readers : list (nat * file);       (* file reads outstanding, with their tickets *)
  tickets : nat;                     (* files selected so far *)
  watermarking_process : option P;   (* the component's state *)
  calls : list (bool * list Z)       (* calls of the library so far, newest first: was the module ready?, the bytes *)
}.

(** Content.tsx:31-36: the effect runs once, or twice under React.StrictMode in development (src/index.tsx:10-14). *)
Definition first_page (effects : nat) : page := mkPage false effects 0 [] 0 None [].

(** Content.tsx:17-23, 34 and 40: decode, call, set the state; an exception leaves the state alone (the promise is rejected and nobody
    listens). *)
Definition attempt (s : page) (data_uri : list Z) : page :=
  match base64_to_uint8_array data_uri with
  | None => s
  | Some bytes =>
      let s' := mkPage (wasm_ready s) (inits s) (defaults s) (readers s) (tickets s) (watermarking_process s) ((wasm_ready s, bytes) :: calls s) in
      match library bytes with
      | None => s'
      | Some p => mkPage (wasm_ready s') (inits s') (defaults s') (readers s') (tickets s') (Some p) (calls s')
      end
  end.

(** What can happen to the page: src/Content/Content.tsx:28-56 *)
Inductive event :=
| InitResolved                      (* init() resolves: Content.tsx:32-33 *)
| InitRejected
| DefaultLoaded (data_url : list Z) (* the built-in picture has been fetched and read: Content.tsx:33-34 *)
| Select (f : option file)          (* the user picks a file, or none: Content.tsx:38-39, 52-55 *)
| FileRead (ticket : nat)           (* reader.onload: utils.ts:55 and Content.tsx:39-41 *)
| FileFailed (ticket : nat).        (* reader.onerror: utils.ts:56 *)

(** The reader (src/Content/utils.ts:51-58) with this ticket, and the others. *)
Fixpoint take (ticket : nat) (l : list (nat * file)) : option (file * list (nat * file)) :=
  match l with
  | [] => None
  | (k, f) :: t => if (k =? ticket)%nat then Some (f, t) else match take ticket t with Some (g, r) => Some (g, (k, f) :: r) | None => None end
  end.

(** One event, or None if it cannot happen in this state. *)
Definition step (s : page) (e : event) : option page :=
  match e with
  | InitResolved => match inits s with
      | O => None
      | S k => Some (mkPage true k (S (defaults s)) (readers s) (tickets s) (watermarking_process s) (calls s)) end
  | InitRejected => match inits s with
      | O => None
      | S k => Some (mkPage (wasm_ready s) k (defaults s) (readers s) (tickets s) (watermarking_process s) (calls s)) end
  | DefaultLoaded url => match defaults s with
      | O => None
      | S k => Some (attempt (mkPage (wasm_ready s) (inits s) k (readers s) (tickets s) (watermarking_process s) (calls s)) url) end
  | Select f => match watermarking_process s with
      | None => None                  (* Content.tsx:44-46: no input element yet *)
      | Some _ => match f with
          | None => Some s            (* readAsDataURL(undefined) throws inside the promise *)
          | Some g => Some (mkPage (wasm_ready s) (inits s) (defaults s) (readers s ++ [(tickets s, g)]) (S (tickets s)) (watermarking_process s) (calls s)) end end
  | FileRead t => match take t (readers s) with
      | None => None
      | Some (g, r) => Some (attempt (mkPage (wasm_ready s) (inits s) (defaults s) r (tickets s) (watermarking_process s) (calls s)) (file_to_base64 g)) end
  | FileFailed t => match take t (readers s) with
      | None => None
      | Some (_, r) => Some (mkPage (wasm_ready s) (inits s) (defaults s) r (tickets s) (watermarking_process s) (calls s)) end
  end.

(** A history of events. *)
Fixpoint run (s : page) (es : list event) : option page :=
  match es with
  | [] => Some s
  | e :: t => match step s e with Some s' => run s' t | None => None end
  end.
End Page.
