(* Model of the two text tokenizers of the preprocessing pipeline:
   src/modssc/preprocess/steps/text/vocab_tokenizer.py and
   src/modssc/preprocess/steps/text/hash_tokenizer.py.
   Texts and words are strings.  str.lower and str.split (Unicode tables) are not modelled: the
   function from a text to its words is an argument, and so is the md5 digest. *)
From Coq Require Import String.
From Verif Require Import Prelude.
Local Open Scope Z_scope.
Local Open Scope list_scope.
Local Notation length := List.length.

(* src/modssc/preprocess/steps/text/vocab_tokenizer.py 47: np.take(texts, idx, axis=0), which counts
   negative positions from the end and raises IndexError outside [-n, n). *)
Definition take_one {A} (rows : list A) (i : Z) : result A :=
  let n := lenZ rows in
  if (i <? - n) || (n <=? i) then Err IndexError
  else match nth_error rows (Z.to_nat (if i <? 0 then i + n else i)) with
       | Some x => Ok x
       | None => Err IndexError
       end.
(* src/modssc/preprocess/steps/text/vocab_tokenizer.py 46-47, all positions in order *)
Fixpoint take_rows {A} (rows : list A) (idx : list Z) : result (list A) :=
  match idx with
  | [] => Ok []
  | i :: r => do x <- take_one rows i; do xs <- take_rows rows r; Ok (x :: xs)
  end.

(* dict.get and dict[k] = v, insertion order kept and an existing key updated in place.  Used by
   src/modssc/preprocess/steps/text/vocab_tokenizer.py 49-60 and 81. *)
Fixpoint dget (d : list (string * Z)) (k : string) : option Z :=
  match d with
  | [] => None
  | (k', v) :: r => if String.eqb k k' then Some v else dget r k
  end.
Fixpoint dset (d : list (string * Z)) (k : string) (v : Z) : list (string * Z) :=
  match d with
  | [] => [(k, v)]
  | (k', v') :: r => if String.eqb k k' then (k', v) :: r else (k', v') :: dset r k v
  end.

(* src/modssc/preprocess/steps/text/vocab_tokenizer.py 49-51: Counter.update, one word at a time *)
Definition bump (d : list (string * Z)) (k : string) : list (string * Z) :=
  dset d k (match dget d k with Some c => c + 1 | None => 1 end).
Definition counter (ws : list string) : list (string * Z) := fold_left bump ws [].

(* src/modssc/preprocess/steps/text/vocab_tokenizer.py 57: Counter.most_common(n), documented as
   sorted(items, key=count, reverse=True)[:n] for n >= 0 and empty for n < 0 (heapq.nlargest);
   the sort is stable. *)
Fixpoint insert_desc (x : string * Z) (l : list (string * Z)) : list (string * Z) :=
  match l with
  | [] => [x]
  | y :: r => if snd y <=? snd x then x :: y :: r else y :: insert_desc x r
  end.
Definition sort_desc (l : list (string * Z)) : list (string * Z) := fold_right insert_desc [] l.
Definition most_common (d : list (string * Z)) (n : Z) : list (string * Z) :=
  firstn (Z.to_nat n) (sort_desc d).

(* src/modssc/preprocess/steps/text/vocab_tokenizer.py 31-35: the fields of VocabTokenizerStep *)
Record vconf := { v_size : Z; v_max : Z; v_min : Z; v_pad : string; v_unk : string }.

(* src/modssc/preprocess/steps/text/vocab_tokenizer.py 58-60: candidates frequent enough get the
   next number *)
Definition add_candidate (c : vconf) (voc : list (string * Z)) (tc : string * Z) : list (string * Z) :=
  if v_min c <=? snd tc then dset voc (fst tc) (lenZ voc) else voc.

(* src/modssc/preprocess/steps/text/vocab_tokenizer.py 39-60: VocabTokenizerStep.fit; words is
   _tokenize (13-16); _as_text_array (19-24) is the identity on a list of texts. *)
Definition vocab_fit (words : string -> list string) (c : vconf) (texts : list string) (fit : list Z)
  : result (list (string * Z)) :=
  do chosen <- take_rows texts fit;
  let counts := counter (flat_map words chosen) in
  let start := dset (dset [] (v_pad c) 0) (v_unk c) 1 in
  Ok (fold_left (add_candidate c) (most_common counts (v_size c - 2)) start).

(* src/modssc/preprocess/steps/text/vocab_tokenizer.py 73-74 and 79-83: one row of the zero
   initialised arrays of width L, the first len(toks) cells written *)
Definition fill (L : Z) (vals : list Z) : list Z :=
  vals ++ repeat 0 (Z.to_nat L - length vals).

Record encoded := { t_ids : list (list Z); t_mask : list (list Z); t_vocab : Z }.

(* src/modssc/preprocess/steps/text/vocab_tokenizer.py 62-92: VocabTokenizerStep.transform; np.zeros
   refuses a negative width (ValueError). *)
Definition vocab_id (voc : list (string * Z)) (unk : Z) (w : string) : Z :=
  match dget voc w with Some i => i | None => unk end.
Definition vocab_transform (words : string -> list string) (c : vconf) (fitted : option (list (string * Z)))
  (texts : list string) : result encoded :=
  match fitted with
  | None => Err PreprocessError
  | Some voc =>
      if v_max c <? 0 then Err ValueError else
      match dget voc (v_unk c) with
      | None => Err KeyError
      | Some unk =>
          let toks t := firstn (Z.to_nat (v_max c)) (words t) in
          Ok {| t_ids := map (fun t => fill (v_max c) (map (vocab_id voc unk) (toks t))) texts;
                t_mask := map (fun t => fill (v_max c) (map (fun _ => 1) (toks t))) texts;
                t_vocab := lenZ voc |}
      end
  end.

(* src/modssc/preprocess/steps/text/hash_tokenizer.py 21-23 *)
Record hconf := { h_size : Z; h_max : Z; h_lower : bool }.

(* src/modssc/preprocess/steps/text/hash_tokenizer.py 12-16: digest is the number in the first four
   bytes of the md5 digest *)
Definition hash_token (digest : string -> Z) (size : Z) (w : string) : Z :=
  2 + (digest w) mod (Z.max 1 (size - 2)).

(* src/modssc/preprocess/steps/text/hash_tokenizer.py 25-58: HashTokenizerStep.transform on the list
   of texts (26-41 turn every supported container into it); lower is str.lower and split is
   str.split. *)
Definition hash_transform (lower : string -> string) (split : string -> list string)
  (digest : string -> Z) (c : hconf) (texts : list string) : result encoded :=
  if h_max c <? 0 then Err ValueError else
  let prep t := if h_lower c then lower t else t in
  let toks t := firstn (Z.to_nat (h_max c))
                  (filter (fun w => negb (String.eqb w EmptyString)) (split (prep t))) in
  Ok {| t_ids := map (fun t => fill (h_max c) (map (hash_token digest (h_size c)) (toks t))) texts;
        t_mask := map (fun t => fill (h_max c) (map (fun _ => 1) (toks t))) texts;
        t_vocab := h_size c |}.
