(* The alias table of an ANS histogram: lib/jxl/ans_common.cc, lib/jxl/ans_common.h,
   lib/jxl/ans_params.h.  Vectors used as stacks are lists whose head is back(); other
   arrays are Arr.v arrays.  [None] is a failed JXL_ENSURE, an out-of-bounds access or
   exhausted fuel. *)
From Verif Require Export Base Arr.

(* ans_params.h:19-21 *)
Definition ANS_LOG_TAB_SIZE : Z := 12.
Definition ANS_TAB_SIZE : Z := 4096.

(* ans_common.h:85-96 AliasTable::Entry *)
Record entry := Entry { cutoff : Z; right_value : Z; freq0 : Z; offsets1 : Z; freq1_xor_freq0 : Z }.
Definition set_right (a : entry) (r o : Z) : entry := Entry (cutoff a) r (freq0 a) o (freq1_xor_freq0 a).

(* ans_common.cc:48-50 and dec_ans.cc:221-223: while (!v.empty() && v.back() == 0) v.pop_back() *)
Fixpoint drop_zeros (rev : list Z) : list Z :=
  match rev with
  | 0 :: rev' => drop_zeros rev'
  | _ => rev
  end.
Definition pop_trailing_zeros (l : list Z) : list Z := rev (drop_zeros (rev l)).

(* ans_common.cc:67-74: the sum and the single symbol (-1: none); [None]: two of them *)
Fixpoint scan_single (dist : list Z) (sym single sum : Z) : option (Z * Z) :=
  match dist with
  | [] => Some (single, sum)
  | v :: dist' =>
      if v =? ANS_TAB_SIZE then
        if single =? -1 then scan_single dist' (sym + 1) sym (sum + v) else None
      else scan_single dist' (sym + 1) single (sum + v)
  end.

(* ans_common.cc:79-85: the loop for a single symbol *)
Fixpoint fill_single (count : nat) (size i sym entry_size : Z) (a : Z -> entry) : option (Z -> entry) :=
  match count with
  | O => Some a
  | S c =>
      do a' <- set size a i (Entry 0 (w8 sym) 0 (w16 (entry_size * i)) ANS_TAB_SIZE);
      fill_single c size (i + 1) sym entry_size a'
  end.

(* ans_common.cc:92-100 *)
Fixpoint classify (dist : list Z) (size entry_size i : Z) (c : Z -> Z) (under over : list Z)
  : option ((Z -> Z) * (list Z * list Z)) :=
  match dist with
  | [] => Some (c, (under, over))
  | v :: dist' =>
      do c' <- set size c i (w32 v);
      if entry_size <? w32 v then classify dist' size entry_size (i + 1) c' under (i :: over)
      else if w32 v <? entry_size then classify dist' size entry_size (i + 1) c' (i :: under) over
      else classify dist' size entry_size (i + 1) c' under over
  end.
(* ans_common.cc:101-104 *)
Fixpoint pad_under (count : nat) (size i : Z) (c : Z -> Z) (under : list Z) : option ((Z -> Z) * list Z) :=
  match count with
  | O => Some (c, under)
  | S n => do c' <- set size c i 0; pad_under n size (i + 1) c' (i :: under)
  end.

(* ans_common.cc:106-124: the loop that moves slots from overfull to underfull entries *)
Fixpoint reassign (fuel : nat) (size entry_size : Z) (c : Z -> Z) (under over : list Z) (a : Z -> entry)
  : option ((Z -> Z) * (Z -> entry)) :=
  match over with
  | [] => Some (c, a)
  | oi :: over' =>
      match fuel with
      | O => None
      | S f =>
          match under with
          | [] => None
          | ui :: under' =>
              do cu <- get size c ui;
              do co <- get size c oi;
              let co' := w32 (co - w32 (entry_size - cu)) in
              do c' <- set size c oi co';
              do au <- get size a ui;
              do a' <- set size a ui (set_right au (w8 oi) (w16 co'));
              if co' <? entry_size then reassign f size entry_size c' (oi :: under') over' a'
              else if entry_size <? co' then reassign f size entry_size c' under' (oi :: over') a'
              else reassign f size entry_size c' under' over' a'
          end
      end
  end.

Definition freq_of (dist : list Z) (i : Z) : Z := match znth dist i with Some v => v | None => 0 end.

(* ans_common.cc:125-147 *)
Fixpoint finish (count : nat) (size entry_size i : Z) (dist : list Z) (c : Z -> Z) (a : Z -> entry) : option (Z -> entry) :=
  match count with
  | O => Some a
  | S n =>
      do ci <- get size c i;
      do ai <- get size a i;
      let '(rv, o1, cut) :=
        if ci =? entry_size then (w8 i, 0, 0) else (right_value ai, w16 (offsets1 ai - ci), w8 ci) in
      let f0 := freq_of dist i in
      let f1 := freq_of dist rv in
      do a' <- set size a i (Entry cut rv (w16 f0) o1 (w16 (Z.lxor f1 f0)));
      finish n size entry_size (i + 1) dist c a'
  end.

(* ans_common.cc:43-148 InitAliasTable with log_range = ANS_LOG_TAB_SIZE; [a] is the memory
   given by the caller with whatever it contains *)
Definition init_alias_table (distribution : list Z) (log_alpha_size : Z) (a : Z -> entry) : option (Z -> entry) :=
  let range := ANS_TAB_SIZE in
  let table_size := Z.shiftl 1 log_alpha_size in
  if negb (table_size <=? range) then None
  else
    let dist := match pop_trailing_zeros distribution with [] => [range] | d => d end in
    if negb (zlen dist <=? table_size) then None
    else
      let entry_size := Z.shiftr range log_alpha_size in
      do (single, sum) <- scan_single dist 0 (-1) 0;
      if negb (w32 sum =? range) then None
      else if negb (single =? -1) then
        if negb (single =? w8 single) then None
        else fill_single (Z.to_nat table_size) table_size 0 single entry_size a
      else
        do (c, (under, over)) <- classify dist table_size entry_size 0 (fun _ => 0) [] [];
        do (c1, under1) <- pad_under (Z.to_nat (table_size - zlen dist)) table_size (zlen dist) c under;
        do (c2, a2) <- reassign (Z.to_nat table_size) table_size entry_size c1 under1 over a;
        finish (Z.to_nat table_size) table_size entry_size 0 dist c2 a2.

(* ans_common.h:98-142 AliasTable::Lookup: (value, offset, freq).  The 64-bit load of an
   entry and the shifts that take it apart are modelled by the fields of the entry. *)
Definition lookup (size : Z) (table : Z -> entry) (value log_entry_size entry_size_minus_1 : Z) : option (Z * Z * Z) :=
  let i := Z.shiftr value log_entry_size in
  let pos := Z.land value entry_size_minus_1 in
  do e <- get size table i;
  let greater := cutoff e <=? pos in
  let off1 := if greater then offsets1 e else 0 in
  let fx := if greater then freq1_xor_freq0 e else 0 in
  Some (if greater then right_value e else i, off1 + pos, Z.lxor (freq0 e) fx).
(* dec_ans.cc:404-405, enc_ans.cc:332-333: log_entry_size and entry_size_minus_1 *)
Definition lookup12 (log_alpha_size : Z) (table : Z -> entry) (value : Z) : option (Z * Z * Z) :=
  let log_entry_size := ANS_LOG_TAB_SIZE - log_alpha_size in
  lookup (Z.shiftl 1 log_alpha_size) table value log_entry_size (Z.shiftl 1 log_entry_size - 1).
