(** C153: the work of writing a response. *)
From Verif.Model Require Import RustStd Path Request Time Status Response WriteCost.
From Verif.Spec Require Import Common.
From Verif.Proofs Require Import ResponseWitness WriteCostProofs.

(** C153.  Making the head of a response copies at most five bytes for each byte of the head, besides the name of the
    status, *)
Theorem C153_writing : forall (cl : cookie_lib) ft w ho pos (r : response cl),
  snd (get_data_counted ft w ho pos r) <= 5 * length (fst (get_data ft w ho pos r)) + length (status_display (rs_status r)).
Proof. exact @write_work. Qed.
Print Assumptions C153_writing.
(** and the head is as long as its parts, whatever the hash order; *)
Theorem C153_size : forall (cl : cookie_lib) ft w ho pos (r : response cl),
  length (fst (get_data ft w ho pos r)) =
    length (rs_version r) + length (show_Z (status_into_i32 (rs_status r))) + length (reason_phrase w r) + 11 +
    list_sum (map (fun kv => length (fst kv) + length (snd kv) + 4) (rs_headers r)) +
    (if cookies_on ft then list_sum (map (fun c => 12 + length (ck_show cl c)) (rs_cookies r)) + 2 * (length (rs_cookies r) - 1)
     else 0).
Proof. exact @head_size. Qed.
Print Assumptions C153_size.
(** the counting functions give what those of the other theorems give. *)
Theorem C153_counts_the_functions : forall (cl : cookie_lib) ft w ho pos (r : response cl),
  fst (get_data_counted ft w ho pos r) = get_data ft w ho pos r.
Proof. exact @get_data_same. Qed.
Print Assumptions C153_counts_the_functions.
Example C153_example : exists r,
  run [OpSet (B "A") (B "b"); OpCookie (B "id=7" : ck ex_cl); OpCookie (B "x=y" : ck ex_cl)] = Done r /\
  length (fst (get_data default_features ex_world insertion_order [] r)) = (3 + 3 + 2 + 11) + 6 + (12 + 4 + 12 + 3 + 2) /\
  snd (get_data_counted default_features ex_world insertion_order [] r) =
    (2 + 2 + 17) + 2 * 6 + (4 + 16 + 3 + 15) + 2 * 33 + 58.
Proof. eexists. split; [reflexivity|]. split; vm_compute; reflexivity. Qed.
