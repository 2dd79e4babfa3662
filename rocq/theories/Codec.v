(** * The source codec and the traceback mapping

    Models /repo/__init__.py 36-155 and /repo/pylib/yutraceback3.py 21-76. *)

From Coq Require Import List NArith ZArith Bool.
From Verif Require Import PyStr Ast Lex.
Import ListNotations.
Open Scope N_scope.

(** ** Header; /repo/__init__.py 36-50.  [None]: the file cannot be read. *)
Definition readline (s : text) : text * text :=
  let k := getline_len s in (firstn k s, skipn k s).
Definition contains (p s : text) : bool :=
  match find_sub p s with Some _ => true | None => false end.
Definition read_header (content : option text) : text :=
  match content with
  | None => []
  | Some c =>
      let '(l1, r) := readline c in
      if contains (lit "coding:") l1 then l1 else l1 ++ fst (readline r)
  end.

(** ** yupp_search_function; /repo/__init__.py 125-155 *)

(** Attributes of a base codec that the function reads.  The module [utf_8] has
    [IncrementalEncoder] etc.; a [codecs.CodecInfo], which is what
    [encodings.search_function] returns, has [incrementalencoder] etc. instead. *)
Record basecodec := Base {
  b_id : text;
  b_has_class_names : bool     (* IncrementalEncoder, StreamWriter, StreamReader exist *)
}.
Definition utf_8 : basecodec := Base (lit "utf_8") true.
Definition pp_name : text := lit "yupp".

(** [encodings.search_function]: [known] answers whether it finds the name; the
    result is a CodecInfo. *)
Definition search_encodings (known : text -> bool) (name : text) : option basecodec :=
  if known name then Some (Base name false) else None.

(** Result: None (not ours), an AttributeError, or a codec over a base. *)
Definition codec_info (b : basecodec) : res (option basecodec) :=
  if b_has_class_names b then Ok (Some b)
  else Err (Exn AttributeError "IncrementalEncoder").
Definition yupp_search (known : text -> bool) (coding : text) : res (option basecodec) :=
  if negb (startswith pp_name (lower coding)) then Ok None
  else match find_sub [c_dot] coding with
       | Some dot =>
           if negb (Nat.eqb dot (length pp_name)) then Ok None
           else match search_encodings known (skipn (S dot) coding) with
                | None => Ok None
                | Some b => codec_info b
                end
       | None =>
           if negb (Nat.eqb (length coding) (length pp_name)) then Ok None
           else codec_info utf_8
       end.

(** ** Incremental decoding; /repo/__init__.py 95-110 over
    codecs.BufferedIncrementalDecoder (CPython Lib/codecs.py) *)
Section Decoder.
(** decode( input ) of decoder_factory (82-92): the preprocessed text and the
    number of bytes consumed *)
Variable decode : list N -> text * nat.

Definition buffer_decode (data : list N) (final : bool) : text * nat :=
  match data with
  | [] => ([], O)
  | _ => if final then decode data else ([], O)
  end.
(** BufferedIncrementalDecoder.decode: the new buffer and the output *)
Definition inc_decode (buffer input : list N) (final : bool) : list N * text :=
  let data := buffer ++ input in
  let '(out, consumed) := buffer_decode data final in
  (skipn consumed data, out).
(** Feed chunks, the last one with final=True: the concatenated output. *)
Fixpoint inc_feed (buffer : list N) (chunks : list (list N)) : text :=
  match chunks with
  | [] => []
  | [c] => snd (inc_decode buffer c true)
  | c :: r => let '(b, out) := inc_decode buffer c false in out ++ inc_feed b r
  end.
End Decoder.

(** ** Traceback; /repo/pylib/yutraceback3.py 21-24, 59-68 *)
Definition subst_table := list (text * (text * nat)).
(** substitution( fn, fn_o, shrink ); [realpath] is an oracle *)
Definition substitution (realpath : text -> text) (fn fn_o : text) (shrink : nat)
  (files : subst_table) : subst_table :=
  dict_set (realpath fn) (realpath fn_o, shrink) files.
(** file name and line number shown for a frame *)
Definition shown (files : subst_table) (co_filename : text) (lineno : Z) : text * Z :=
  let '(filename, shrink) := match dict_get co_filename files with
                             | Some e => e
                             | None => (co_filename, O)
                             end in
  let lineno := (lineno - (Z.of_nat shrink - 1))%Z in
  (filename, if (lineno <? 1)%Z then 1%Z else lineno).

(** ** Decoding a source; /repo/__init__.py 53-92 *)
(** the text that is preprocessed: the header read from the file, then what the
    interpreter passes (91-92); [content] is the file in text mode *)
Definition stream_text (content : option text) (data : text) : text := read_header content ++ data.
(** decode_stream; 53-76.  [r]: the result of proc_stream, [None] if it raises;
    [syntax]: whether ast.parse accepts the code.  Printing is left out. *)
Definition decode_stream (syntax : text -> bool) (realpath : text -> text) (fn : text)
  (r : option (bool * text * text * nat)) (files : subst_table) : text * subst_table :=
  match r with
  | Some (true, code, fn_o, shrink) =>
      (if syntax code then code else [], substitution realpath fn fn_o shrink files)
  | _ => ([], files)
  end.
(** decode; 82-92.  [base]: the decoder of the base codec, [process]: proc_stream *)
Definition decode (base : list N -> text * nat) (syntax : text -> bool) (realpath : text -> text)
  (content : option text) (fn : text) (process : text -> option (bool * text * text * nat))
  (input : list N) (files : subst_table) : text * nat * subst_table :=
  let '(data, bytes) := base input in
  let '(code, files) := decode_stream syntax realpath fn (process (stream_text content data)) files in
  (code, bytes, files).
