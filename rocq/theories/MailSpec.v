(** * Vocabulary for surrogates sent through JSON by fields (C80). *)
From Verif Require Export SurrogateSpec CarrySpec.
Open Scope Z_scope.

(** [mailable E desc recon n m f v]: [v] is a value of the schema [f] that JSON can carry, as in
    [faithful] and [json_faithful], and every surrogate inside it can be written and read again, as in
    [restorable]: the token of its class is a text JSON carries; it has neither schemas nor reserved keys
    and its contents are a document of JSON; or its contents are mailable by the schema of its version, or
    by a schema of its own, which is reconstructed from a description that is a document of JSON.  At most
    [m] surrogates are nested, and at most [n] placeholders are followed between them. *)
Fixpoint mailable E desc recon (n m : nat) (f : field) (v : val) : Prop :=
  throughout E well_keyed f /\ throughout E (tidy E) f /\ throughout E (transportable E) f
  /\ throughout E (json_portable E) f
  /\ conforms E n f v
  /\ (forall k x, meets E f v k x -> faithful E desc recon k x /\ json_faithful E desc k x)
  /\ forall valid x, meets E f v (KSurrogate valid) x -> x <> VNone ->
       match m with
       | O => False
       | S m' => exists impl token schema version items, x = VSurr impl schema version items
           /\ permitted E valid impl /\ identified E impl token /\ carried token
           /\ match schema, version with
              | None, None => e_schemas E impl = [] /\ document E (VDict false items)
                  /\ forall s, reserved s -> ~ In (VStr s) (map fst items)
              | None, Some z => exists g, version_schema E impl z g
                  /\ unreserved g /\ mailable E desc recon n m' g (VDict false items)
              | Some g, None => exists d, desc g = Ok d /\ truthy d = true /\ recon d = Ok g /\ document E d
                  /\ unreserved g /\ mailable E desc recon n m' g (VDict false items)
              | _, _ => False
              end
       end.
