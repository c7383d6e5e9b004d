(** Plain dictionaries in old files: src/disc_solver/file_format/_old_dict_loading.py.

    h5preserve is not modelled: a GroupContainer is its attributes and its items; a group keeps both and lists the items in any
    order.  Values are abstract; [mapping] says which dictionary a value is, if it is one (other values cannot be attributes). *)
From Coq Require Import String List Bool.
From Verif Require Import Lib_Py.
Import ListNotations.
Open Scope string_scope. Open Scope list_scope.

Section OldDict.
Context {V : Type}.
Variables (mapping : V -> option (dict V)) (from_mapping : dict V -> V).
Record group := mk_group { g_attrs : dict V; g_items : dict V }.
(** _old_dict_loading.py:9-12: GroupContainer( **d ), whose parameter attrs is the attributes. *)
Definition dict_dumper (d : dict V) : res group :=
  let items := filter (fun kv => negb (String.eqb (fst kv) "attrs")) d in
  match dget "attrs" d with
  | None => Ok (mk_group [] items)
  | Some v => match mapping v with Some a => Ok (mk_group a items) | None => Raise TypeError end
  end.
(** _old_dict_loading.py:15-22. *)
Definition dict_loader (g : group) : dict V :=
  let new_dict := dupdate [] (g_items g) in
  match g_attrs g with [] => new_dict | a => dset "attrs" (from_mapping a) new_dict end.
End OldDict.
Arguments group : clear implicits.
