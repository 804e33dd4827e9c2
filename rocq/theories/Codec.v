(** Model of how bytes of files become text and back: ModelList::setEncoding (modellist.cpp 387-402),
    KompareProcess::setEncoding (kompareprocess.cpp 214-228), ModelListPrivate::readFile (modellist_p.cpp 45-67), and the
    QTextStream through which saveDestination (modellist.cpp 261, 286-287) and slotWriteDiffOutput (543-545) write.
    A byte is an [N] below 256. *)
From Coq Require Import String.
From Verif Require Import Base QtStr.
Open Scope N_scope.

(** The contract of QStringDecoder: a machine that reads byte after byte; resetState() puts it in its first state. What is
    pending at the end is not given out. *)
Record codec := mk_codec { cd_state : Type; cd_start : cd_state; cd_byte : cd_state -> N -> cd_state * str }.
(** QStringDecoder::decode of one block. *)
Fixpoint decode (cd : codec) (s : cd_state cd) (bytes : list N) : cd_state cd * str :=
  match bytes with
  | [] => (s, [])
  | b :: bytes' => let '(s, t) := cd_byte cd s b in let '(s, t') := decode cd s bytes' in (s, t ++ t')
  end.
(** modellist_p.cpp 57-62: the loop over the blocks that QFile::read gives (at most 4096 bytes each; it may give fewer). *)
Fixpoint read_blocks (cd : codec) (s : cd_state cd) (blocks : list (list N)) : str :=
  match blocks with
  | [] => []
  | b :: blocks' => let '(s, t) := decode cd s b in t ++ read_blocks cd s blocks'
  end.
(** modellist_p.cpp 45-67 readFile. [None]: the file cannot be opened, and QIODevice::atEnd() of a closed device is true. *)
Definition read_file (cd : codec) (file : option (list (list N))) : str :=
  match file with None => [] | Some blocks => read_blocks cd (cd_start cd) blocks end.

(** kompareprocess.cpp 249-255 slotFinished: what diff printed (readAllStandardOutput) is decoded as one block, from the first state. *)
Definition process_output (cd : codec) (bytes : list N) : str := snd (decode cd (cd_start cd) bytes).

(** QString::compare with Qt::CaseInsensitive against the text default: no letter outside ASCII folds to one of its letters. *)
Definition lower (c : chr) : chr := if (65 <=? c) && (c <=? 90) then c + 32 else c.
Definition is_default (name : str) : bool := str_eqb (map lower name) (lit "default").
(** modellist.cpp 387-402, kompareprocess.cpp 214-228: the codec for a name. [known]: QStringDecoder of a name, none if invalid. *)
Definition set_encoding (system : codec) (known : str -> option codec) (name : str) : codec :=
  if is_default name then system else match known name with Some cd => cd | None => system end.

(** * UTF-8 *)
(** Qt's QUtf8: the number of bytes of a sequence, told by the first; 0: it cannot be first. *)
Definition needs (b : N) : nat :=
  if b <? 128 then 1%nat else if b <? 194 then 0%nat else if b <? 224 then 2%nat else if b <? 240 then 3%nat else if b <? 245 then 4%nat else 0%nat.
Definition is_continuation (b : N) : bool := (128 <=? b) && (b <? 192).
Definition join (bytes : list N) : N :=
  match bytes with
  | [a] => a
  | [a; b] => (a - 192) * 64 + (b - 128)
  | [a; b; c] => (a - 224) * 4096 + (b - 128) * 64 + (c - 128)
  | [a; b; c; d] => (a - 240) * 262144 + (b - 128) * 4096 + (c - 128) * 64 + (d - 128)
  | _ => 0
  end.
Definition is_surrogate (c : N) : bool := (55296 <=? c) && (c <? 57344).
(** The checks after the bytes are joined: not too long, no surrogate, not beyond the last code point. *)
Definition sound (n : nat) (c : N) : bool :=
  match n with
  | 1%nat => true
  | 2%nat => 128 <=? c
  | 3%nat => (2048 <=? c) && negb (is_surrogate c)
  | _ => (65536 <=? c) && (c <? 1114112)
  end.
Definition units (c : N) : str := if c <? 65536 then [c] else [55296 + (c - 65536) / 1024; 56320 + (c - 65536) mod 1024].
Definition replacement : chr := 65533.
(** The state: the bytes of an unfinished sequence, and whether something has been read. A byte order mark that is the first
    character is dropped. *)
Definition utf8_state : Type := list N * bool.
Definition give (done : bool) (u : str) : str := if done then u else match u with [c] => if c =? 65279 then [] else u | _ => u end.
(** A sequence with a wrong byte gives one replacement character for each of its bytes; the byte is then looked at again. Qt
    differs in the number of replacement characters when a wrong sequence is cut by a block. *)
Definition utf8_first (done : bool) (b : N) : utf8_state * str :=
  match needs b with
  | 0%nat => (([], true), [replacement])
  | 1%nat => (([], true), give done (units b))
  | _ => (([b], done), [])
  end.
Definition utf8_byte (s : utf8_state) (b : N) : utf8_state * str :=
  match fst s with
  | [] => utf8_first (snd s) b
  | a :: p =>
      if is_continuation b then
        let q := (a :: p) ++ [b] in
        if Nat.eqb (length q) (needs a) then
          if sound (length q) (join q) then (([], true), give (snd s) (units (join q))) else (([], true), repeat replacement (length q))
        else ((q, snd s), [])
      else let '(s', t) := utf8_first true b in (s', repeat replacement (length (a :: p)) ++ t)
  end.
Definition utf8 : codec := mk_codec utf8_state ([], false) utf8_byte.
(** ISO 8859-1, for examples. *)
Definition latin1 : codec := mk_codec unit tt (fun _ b => (tt, [b])).

(** QTextStream writes UTF-8 without byte order mark unless told otherwise, and nothing tells it (modellist.cpp 261, 543). A
    surrogate that is not part of a pair gives the replacement character. *)
Definition split_code (c : N) : list N :=
  if c <? 128 then [c]
  else if c <? 2048 then [192 + c / 64; 128 + c mod 64]
  else if c <? 65536 then [224 + c / 4096; 128 + c / 64 mod 64; 128 + c mod 64]
  else [240 + c / 262144; 128 + c / 4096 mod 64; 128 + c / 64 mod 64; 128 + c mod 64].
Fixpoint write_text (t : str) : list N :=
  match t with
  | [] => []
  | c :: t' =>
      if is_surrogate c then
        match t' with
        | d :: t'' =>
            if (c <? 56320) && ((56320 <=? d) && (d <? 57344)) then split_code (65536 + (c - 55296) * 1024 + (d - 56320)) ++ write_text t''
            else split_code replacement ++ write_text t'
        | [] => split_code replacement
        end
      else split_code c ++ write_text t'
  end.
