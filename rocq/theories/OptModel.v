(** Model of the option reading functions of src/coco_utilities.c (515-896). *)
From Coq Require Import List Arith NArith ZArith Ascii String Bool.
From Verif Require Import CBase StrModel.
Import ListNotations.

(** ** coco_options_read: src/coco_utilities.c 757-778 *)

(** Lines 759-767 (the same code in 833-841 and 872-880): i1 is the position of the name, i2 the
    position after the first colon behind it; without a colon coco_strfind gives -1 and i2 = i1.
    [None] stands for "return 0" (no options, name not found). *)
Definition locate (options name : cstr) : res (option (nat * nat)) :=
  match options with
  | [] => Ok None
  | _ =>
      do i1 <- coco_strfind options name;
      if (i1 <? 0)%Z then Ok None
      else
        let p1 := Z.to_nat i1 in
        do c <- coco_strfind (skipn p1 options) (str ":");
        Ok (Some (p1, Z.to_nat (i1 + c + 1)))
  end.

(** Lines 769-771: number of white space characters at the start of a string. *)
Fixpoint leading_space (s : cstr) : nat :=
  match s with
  | c :: s' => if isspace c then S (leading_space s') else 0
  | [] => 0
  end.

(** Lines 769-777: the text handed to sscanf, or [None] for "return 0" (line 774). *)
Definition value_text (options name : cstr) : res (option cstr) :=
  do l <- locate options name;
  match l with
  | None => Ok None
  | Some (i1, i2) =>
      let i2' := i2 + leading_space (skipn i2 options) in
      if i2' <=? i1 then Ok None else Ok (Some (skipn i2' options))
  end.

(** Return value of a reading function and the value stored, if any.  sscanf returns -1 (EOF) when
    the input ends before the first conversion. *)
Definition reading (A : Type) : Type := (Z * option A)%type.

(** *** sscanf with " %i" (line 790): sign, then hexadecimal (0x), octal (0) or decimal digits.
    Values that do not fit an int are undefined behaviour. *)
Definition hex_val (c : ascii) : option Z :=
  let n := Z.of_nat (code c) in
  if isdigit c then Some (n - 48)%Z
  else if (97 <=? n)%Z && (n <=? 102)%Z then Some (n - 87)%Z
  else if (65 <=? n)%Z && (n <=? 70)%Z then Some (n - 55)%Z
  else None.

Definition digit_in (base : Z) (c : ascii) : option Z :=
  match hex_val c with
  | Some v => if (v <? base)%Z then Some v else None
  | None => None
  end.

(** Value of the longest digit prefix; [None] if there is no digit. *)
Fixpoint scan_digits (base : Z) (s : cstr) (acc : option Z) : option Z :=
  match s with
  | [] => acc
  | c :: s' =>
      match digit_in base c with
      | Some v =>
          scan_digits base s' (Some (match acc with Some a => a * base + v | None => v end)%Z)
      | None => acc
      end
  end.

Definition scan_unsigned (s : cstr) : option Z :=
  match s with
  | "0"%char :: x :: s' =>
      if Ascii.eqb x "x"%char || Ascii.eqb x "X"%char then scan_digits 16 s' None
      else scan_digits 8 s None
  | _ => scan_digits 10 s None
  end.

Definition INT_MIN : Z := (-2147483648)%Z.
Definition INT_MAX : Z := 2147483647%Z.

Definition sscanf_int (s0 : cstr) : res (reading Z) :=
  let s := skipn (leading_space s0) s0 in
  match s with
  | [] => Ok ((-1)%Z, None)
  | c :: s' =>
      let r := if Ascii.eqb c "-"%char then option_map Z.opp (scan_unsigned s')
               else if Ascii.eqb c "+"%char then scan_unsigned s'
               else scan_unsigned s in
      match r with
      | None => Ok (0%Z, None)
      | Some v => if (v <? INT_MIN)%Z || (INT_MAX <? v)%Z then UB else Ok (1%Z, Some v)
      end
  end.

(** coco_options_read_int: src/coco_utilities.c 789-791 *)
Definition coco_options_read_int (options name : cstr) : res (reading Z) :=
  do t <- value_text options name;
  match t with
  | None => Ok (0%Z, None)
  | Some s => sscanf_int s
  end.

(** ** coco_options_read_string: src/coco_utilities.c 829-854 *)

(** sscanf "%s": a word, up to white space. *)
Fixpoint word (s : cstr) : cstr :=
  match s with
  | c :: s' => if isspace c then [] else c :: word s'
  | [] => []
  end.

(** The scan set that excludes the quotation mark (line 851): up to the next quotation mark. *)
Fixpoint until_quote (s : cstr) : cstr :=
  match s with
  | c :: s' => if Ascii.eqb c """"%char then [] else c :: until_quote s'
  | [] => []
  end.

(** Storing a string of the given length and its NUL into a buffer of [cap] characters; sscanf
    does not check the size. *)
Definition store (cap : N) (s : cstr) : res cstr :=
  if (N.of_nat (List.length s) <? cap)%N then Ok s else UB.

Definition coco_options_read_string (options name : cstr) (cap : N) : res (reading cstr) :=
  do t <- value_text options name;
  match t with
  | None => Ok (0%Z, None)
  | Some s =>
      match s with
      | [] => Ok ((-1)%Z, None)                                       (* 853, EOF *)
      | c :: s' =>
          if Ascii.eqb c """"%char then                               (* 849-851 *)
            match s' with
            | [] => Ok ((-1)%Z, None)                                 (* nothing after the quote *)
            | c' :: _ =>
                if Ascii.eqb c' """"%char then Ok (0%Z, None)         (* two quotation marks in a row: matching failure *)
                else do w <- store cap (until_quote s'); Ok (1%Z, Some w)
            end
          else do w <- store cap (word s); Ok (1%Z, Some w)
      end
  end.

(** ** coco_options_read_values: src/coco_utilities.c 868-896 *)

(** Lines 886-894: [s] is the text from options[i2 + i] on, [out] what has been written, [room] the
    number of characters left in the buffer.  The index i is an int; its overflow is not modelled. *)
Fixpoint values_loop (s out : cstr) (room : N) : res cstr :=
  match s with
  | [] => if (0 <? room)%N then Ok out else UB
  | c :: s' =>
      if isalpha c then (if (0 <? room)%N then Ok out else UB)
      else if isspace c then values_loop s' out room
      else if (0 <? room)%N then values_loop s' (out ++ [c]) (room - 1) else UB
  end.

(** The result is the number of characters stored; 0 when nothing was found.  [None]: the buffer
    was not written. *)
Definition coco_options_read_values (options name : cstr) (cap : N) : res (nat * option cstr) :=
  do l <- locate options name;
  match l with
  | None => Ok (0, None)
  | Some (i1, i2) =>
      if i2 <=? i1 then Ok (0, None)
      else do v <- values_loop (skipn i2 options) [] cap; Ok (List.length v, Some v)
  end.

(** ** Option keys: src/coco_utilities.c 639-724 *)

(** coco_strdupf(s) without further arguments (line 658; src/coco_string.c 42-66): the string is
    used as a printf format.  Lines 56-58: 220 or more characters terminate the program.  "%%"
    prints one percent sign; any other conversion reads an argument that does not exist.  The
    output is never longer than the format, so the buffer of 444 characters is large enough. *)
Definition PERCENT : ascii := "%"%char.
Definition fmt_max : nat := 220.

Fixpoint format_expand (s : cstr) : res cstr :=
  match s with
  | [] => Ok []
  | c :: s' =>
      if Ascii.eqb c PERCENT then
        match s' with
        | c' :: s'' =>
            if Ascii.eqb c' PERCENT then do r <- format_expand s''; Ok (PERCENT :: r) else UB
        | [] => UB
        end
      else do r <- format_expand s'; Ok (c :: r)
  end.

Definition strdupf_plain (s : cstr) : res cstr :=
  if fmt_max <=? List.length s then Err else format_expand s.

Definition QUOTE : ascii := """"%char.
Definition COLON : ascii := ":"%char.
Definition SPACE : ascii := " "%char.

(** Lines 655-669: [odd] tells whether i is odd. *)
Fixpoint clean_rest (chunks : list cstr) (odd : bool) (acc : cstr) : cstr :=
  match chunks with
  | [] => acc
  | k :: ks => clean_rest ks (negb odd) (acc ++ (if odd then str "STR" else k))
  end.

(** Without any chunk cleaned_option_string stays NULL and line 679 dereferences it. *)
Definition cleaned (s : cstr) : res cstr :=
  do chunks <- coco_string_split s QUOTE;
  match chunks with
  | [] => UB
  | k :: ks => do c0 <- strdupf_plain k; Ok (clean_rest ks true c0)
  end.

(** strrchr(s, ' ') + 1: the part behind the last space ([None]: no space). *)
Fixpoint after_last_space (s : cstr) : option cstr :=
  match s with
  | [] => None
  | c :: s' =>
      match after_last_space s' with
      | Some r => Some r
      | None => if Ascii.eqb c SPACE then Some s' else None
      end
  end.

(** Lines 684-709.  [first] is (i == 0). *)
Fixpoint keys_loop (chunks : list cstr) (first : bool) : res (list cstr) :=
  match chunks with
  | [] => Ok []
  | k :: ks =>
      do t <- coco_string_trim k;
      if negb first && match ks with [] => true | _ => false end then Ok []
      else
        let key := if first then t
                   else match after_last_space t with Some r => r | None => t end in
        do r <- keys_loop ks false;
        Ok (key :: r)
  end.

(** Lines 639-724; [None] is NULL (empty string, or no key at all: coco_option_keys_allocate with
    count 0, lines 526-527). *)
Definition coco_option_keys (s : cstr) : res (option (list cstr)) :=
  match s with
  | [] => Ok None
  | _ =>
      do cl <- cleaned s;
      do chunks <- coco_string_split cl COLON;
      do ks <- keys_loop chunks true;
      Ok (match ks with [] => None | _ => Some ks end)
  end.

(** coco_option_keys_get_redundant: src/coco_utilities.c 560-594 *)
Definition redundant (known given : list cstr) : list cstr :=
  filter (fun k => negb (existsb (fun q => streq k q) known)) given.

(** coco_option_keys_add: src/coco_utilities.c 599-629 *)
Definition option_keys_add (basic additional : list cstr) : list cstr := basic ++ additional.

(** coco_option_keys_get_output_string: src/coco_utilities.c 731-746, with coco_vstrdupf
    (src/coco_string.c 42-66): the text is written into a buffer of 444 characters by vsprintf;
    more than 441 characters are an error detected afterwards, more than 443 do not fit. *)
Definition strdupf_result (s : cstr) : res cstr :=
  if (443 <? N.of_nat (List.length s))%N then UB
  else if (441 <? N.of_nat (List.length s))%N then Err else Ok s.

Fixpoint output_string_loop (keys : list cstr) (acc : cstr) : res cstr :=
  match keys with
  | [] => Ok acc
  | k :: ks =>
      do acc' <- strdupf_result (acc ++ SPACE :: k ++ ["010"%char]);
      output_string_loop ks acc'
  end.

Definition coco_option_keys_get_output_string (keys : list cstr) (info : cstr) : res cstr :=
  output_string_loop keys info.

(** The check for unknown keys as done by coco_suite.c 719-742, 823-846 and coco_observer.c: the text
    of the warning, [None] if there is none. *)
Definition check_keys (known : list cstr) (options info_redundant info_valid : cstr)
  : res (option cstr) :=
  do given <- coco_option_keys options;
  match given with
  | None => Ok None
  | Some g =>
      match redundant known g with
      | [] => Ok None
      | r =>
          do a <- coco_option_keys_get_output_string r info_redundant;
          do b <- coco_option_keys_get_output_string known info_valid;
          Ok (Some (a ++ b))
      end
  end.
