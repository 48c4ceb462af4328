(** * What loading does to the caller's '-keys' section

    The engine (EngineDeser.v) returns values only.  Here the dict under '-keys' is state:
    the copy [{**obj}] that _load_hashed_keys works on shares it with the caller's
    document. *)
From Verif Require Export EngineDeser.
Set Implicit Arguments.
Local Open Scope string_scope.

Section Unpack.
Variables (CT : classes).
(** [load(original_key, cls=key_type, **kwargs)] *)
Variable ld : value -> M value.

(** The loop of _load_hashed_keys, deserializers/default_dict.py:49-61.  [order] is the
    order in which the set of the stored keys is traversed, [section] the dict under
    '-keys', [result] the copy.  Returns the section as it is afterwards, and the outcome.
    As in [hashed_go], a stored key that loads as '-keys' itself is rejected. *)
Fixpoint unpack (order : list value) (section result : list (value * value))
  : list (value * value) * outcome (list (value * value)) :=
  match order with
  | [] => (section,                                          (* del result['-keys'] *)
           if dhas (VStr "-keys") result then Done (ddel (VStr "-keys") result)
           else Fail (exn_of KKey))
  | key :: rest =>
      match dget key section with                            (* result['-keys'][key] *)
      | None => (section, Fail (exn_of KKey))
      | Some orig =>
          match snd (ld orig) with
          | Fail e => (section, Fail e)
          | Oof => (section, Oof)
          | Done k =>
              match dget key result with
              | None => (section, Fail (exn_of KKey))
              | Some x =>
                  if hashable CT k && negb (py_eqb (VStr "-keys") k) then
                    unpack rest (ddel key section)           (* del result['-keys'][key] *)
                           (ddel key (dset k x result))      (* del result[key] *)
                  else (section, Fail (exn_of KType))
              end
          end
      end
  end.
End Unpack.

(** The caller's document after load(doc, cls) with [cls] a mapping type of keys [tk]: the
    dict under '-keys' is the one that was emptied.  _load_hashed_keys,
    deserializers/default_dict.py:32-62, called by way of load, _load_impl.py:26-101.
    Documents inside [d] that have sections of their own are not followed. *)
Definition caller_after (E : env) (n f : nat) (o : lopts) (tk : ty) (order : list value)
           (d : list (value * value)) : list (value * value) :=
  match dget (VStr "-keys") d with
  | Some (VDict k section) =>
      match section with
      | [] => d
      | _ :: _ =>
          dset (VStr "-keys")
               (VDict k (fst (unpack (e_ct E) (load E n f o (Some tk)) order section d))) d
      end
  | _ => d
  end.
