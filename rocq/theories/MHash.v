(** * Model of the entry points: the hash<H>(...) overloads, the result conversions, the range adaptor *)
From Coq Require Import NArith Arith List Bool.
From Verif Require Import SpecStream MPack MAcc MMisc.
Import ListNotations.

(** hash_value.hpp:112-115, 140-143, 225-228, 243-246: std::numeric_limits<value_type>::digits +
    is_signed. *)
Definition value_bits (digits : nat) (is_signed : bool) : nat := digits + (if is_signed then 1 else 0).

(** The values an iterator range [first, last) denotes: [n] consecutive cells of memory, each the
    object representation of an element as an unsigned number. *)
Definition read_range (m : memory) (first n : nat) : list N := map (fun i => m (first + i)) (seq 0 n).

(** std::move(result.cbegin(), result.cend(), out) and std::copy: writes in order and returns the
    advanced iterator. *)
Fixpoint write_all (m : memory) (out : nat) (xs : list N) : memory * nat :=
  match xs with
  | [] => (m, out)
  | x :: xs' => write_all (store m out x) (S out) xs'
  end.

Section Hash.
Context (C : construction) (inj : injector) (digits : nat) (is_signed : bool).
Let vb := value_bits digits is_signed.

(** hash_value.hpp:105-120 (process(range)) and 134-146 (process(first, last)): a stream processor
    on the accumulator, destroyed at the end of the statement. *)
Definition impl_process (a : acc C) (m : memory) (first n : nat) : option (acc C) :=
  hash_into C inj vb a (read_range m first n).

(** hash_value.hpp:78-201: range_hash_impl over value_hash_impl holds a copy of the accumulator;
    over ref_hash_impl it refers to the caller's.  [junk] is the indeterminate cache of the
    temporary HashAccumulator() of the caller. *)
Definition value_impl (junk : list N) (m : memory) (first n : nat) : option (acc C) :=
  impl_process (acc_init C junk) m first n.

(** hash_value.hpp:173-175: operator result_type. *)
Definition as_result (a : acc C) : option (list N) := acc_result C a.

(** hash_value.hpp:147-163: operator std::array<T, Size> and boost::array<T, Size>; [junk] is the
    indeterminate content of [out]; copying beyond its end is [None]. *)
Definition as_array (size : nat) (junk : list N) (a : acc C) : option (list N) :=
  match acc_result C a with
  | None => None
  | Some d => if length d <=? size then Some (d ++ skipn (length d) junk) else None
  end.

(** hash_value.hpp:165-171: operator OutputRange. *)
Definition as_range (a : acc C) : option (list N) := acc_result C a.

(** hash_value.hpp:177-179: operator accumulator_set_type &. *)
Definition as_accumulator (a : acc C) : acc C := a.

(** hash_value.hpp:255-259: itr_hash_impl's operator OutputIterator. *)
Definition as_iterator (m : memory) (out : nat) (a : acc C) : option (memory * nat) :=
  match acc_result C a with
  | None => None
  | Some d => Some (write_all m out d)
  end.

(** algorithm/hash.hpp:90-104: hash<H>(first, last, out). *)
Definition hash_iter_out (junk : list N) (m : memory) (first n out : nat) : option (memory * nat) :=
  match impl_process (acc_init C junk) m first n with None => None | Some a => as_iterator m out a end.
(** algorithm/hash.hpp:133-143: hash<H>(first, last, acc): the caller's accumulator is updated and
    a copy of it returned. *)
Definition hash_iter_acc (m : memory) (first n : nat) (sh : acc C) : option (acc C * acc C) :=
  match impl_process sh m first n with None => None | Some a => Some (a, as_accumulator a) end.
(** algorithm/hash.hpp:159-170: hash<H>(first, last). *)
Definition hash_iter (junk : list N) (m : memory) (first n : nat) : option (acc C) := value_impl junk m first n.
(** algorithm/hash.hpp:200-212: hash<H>(range, out); range.begin() and range.end() are [first] and
    [first + n]. *)
Definition hash_range_out (junk : list N) (m : memory) (first n out : nat) : option (memory * nat) :=
  match impl_process (acc_init C junk) m first n with None => None | Some a => as_iterator m out a end.
(** algorithm/hash.hpp:228-238: hash<H>(range, acc). *)
Definition hash_range_acc (m : memory) (first n : nat) (sh : acc C) : option (acc C * acc C) :=
  match impl_process sh m first n with None => None | Some a => Some (a, as_accumulator a) end.
(** algorithm/hash.hpp:253-262: hash<H>(range). *)
Definition hash_range (junk : list N) (m : memory) (first n : nat) : option (acc C) := value_impl junk m first n.
(** algorithm/hash.hpp:389-400, 416-427, 442-451: the initializer_list forms; the list's array is
    [n] cells from [first]. *)
Definition hash_ilist_out (junk : list N) (m : memory) (first n out : nat) : option (memory * nat) :=
  match impl_process (acc_init C junk) m first n with None => None | Some a => as_iterator m out a end.
Definition hash_ilist_acc (m : memory) (first n : nat) (sh : acc C) : option (acc C * acc C) :=
  match impl_process sh m first n with None => None | Some a => Some (a, as_accumulator a) end.
Definition hash_ilist (junk : list N) (m : memory) (first n : nat) : option (acc C) := value_impl junk m first n.
(** adaptor/hashed.hpp:41-73: operator|(r, f) ignores the accumulator in [f] and uses a new one. *)
Definition hash_adaptor (junk : list N) (m : memory) (first n : nat) (f : acc C) : option (acc C) :=
  value_impl junk m first n.
End Hash.
