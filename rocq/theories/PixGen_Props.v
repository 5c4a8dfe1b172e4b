(* C62, C63: pixel arithmetic of the reference pipelines. *)
From Verif Require Import Base PixelOps_Spec PixGen_Model PixGen_Spec PixGen_Proofs PixGen_Proofs2.
Ltac Zify.zify_post_hook ::= idtac.

(* C62: both representations of an unpacked pixel (one 64-bit or two 32-bit words) compute every component from the same component of
   the two pixels, the alpha of the source and the mask; nothing carries into another component. src-over needs a premultiplied source. *)
Theorem C62_pixel o m da dr dg db sa sr sg sb :
  u8 da -> u8 dr -> u8 dg -> u8 db -> u8 sa -> u8 sr -> u8 sg -> u8 sb -> match m with None => True | Some m => u8 m end ->
  (o = OpSrcOver -> sr <= sa /\ sg <= sa /\ sb <= sa) ->
  let f d s := match m with None => blend o d s sa | Some m => blend_masked o d s sa m end in
  let expected := pack32 (f da sa) (f dr sr) (f dg sg) (f db sb) in
  impl64 o (pack32 da dr dg db) (pack32 sa sr sg sb) m = expected /\
  impl32 o (pack32 da dr dg db) (pack32 sa sr sg sb) m = expected.
Proof.
  intros DA DR DG DB SA SR SG SB M P. cbv zeta. rewrite <- !b4_pack.
  split; [apply impl64_ok | apply impl32_ok]; try assumption; intros E; destruct (P E) as (?&?&?); repeat split; assumption.
Qed.
Print Assumptions C62_pixel.

Theorem C62_alpha o m d s : u8 d -> u8 s -> match m with None => True | Some m => u8 m end ->
  impl8 o d s m = match m with None => blend o d s s | Some m => blend_masked o d s s m end.
Proof. exact (impl8_ok o m d s). Qed.
Print Assumptions C62_alpha.

(* C63: premultiplied pixels stay premultiplied *)
Theorem C63_premultiplied o m da dr dg db sa sr sg sb :
  u8 da -> 0 <= dr <= da -> 0 <= dg <= da -> 0 <= db <= da -> u8 sa -> 0 <= sr <= sa -> 0 <= sg <= sa -> 0 <= sb <= sa ->
  match m with None => True | Some m => u8 m end ->
  exists a r g b, impl64 o (pack32 da dr dg db) (pack32 sa sr sg sb) m = pack32 a r g b /\
    impl32 o (pack32 da dr dg db) (pack32 sa sr sg sb) m = pack32 a r g b /\ u8 a /\ 0 <= r <= a /\ 0 <= g <= a /\ 0 <= b <= a.
Proof.
  intros DA DR DG DB SA SR SG SB M.
  assert (u8 dr /\ u8 dg /\ u8 db /\ u8 sr /\ u8 sg /\ u8 sb) as (U1 & U2 & U3 & U4 & U5 & U6) by (unfold u8 in *; lia).
  pose proof (C62_pixel o m da dr dg db sa sr sg sb DA U1 U2 U3 SA U4 U5 U6 M ltac:(lia)) as [E1 E2].
  exists (result o m da sa sa), (result o m dr sr sa), (result o m dg sg sa), (result o m db sb sa).
  split; [exact E1|]. split; [exact E2|]. split; [apply result_u8; (assumption || lia)|].
  repeat split; try (apply result_le; (assumption || lia)); apply result_u8; (assumption || lia).
Qed.
Print Assumptions C63_premultiplied.

(* C63: a mask of 0 leaves the destination alone, a mask of 255 is no mask; for all pixels of 32 bits (the source of src-over premultiplied) *)
Theorem C63_mask_ends o da dr dg db sa sr sg sb :
  u8 da -> u8 dr -> u8 dg -> u8 db -> u8 sa -> u8 sr -> u8 sg -> u8 sb -> (o = OpSrcOver -> sr <= sa /\ sg <= sa /\ sb <= sa) ->
  let d := pack32 da dr dg db in let s := pack32 sa sr sg sb in
  impl64 o d s (Some 0) = d /\ impl32 o d s (Some 0) = d /\ impl64 o d s (Some 255) = impl64 o d s None /\ impl32 o d s (Some 255) = impl32 o d s None.
Proof.
  intros DA DR DG DB SA SR SG SB P. cbv zeta.
  pose proof (C62_pixel o (Some 0) da dr dg db sa sr sg sb DA DR DG DB SA SR SG SB ltac:(unfold u8; lia) P) as [E1 E2].
  pose proof (C62_pixel o (Some 255) da dr dg db sa sr sg sb DA DR DG DB SA SR SG SB ltac:(unfold u8; lia) P) as [E3 E4].
  pose proof (C62_pixel o None da dr dg db sa sr sg sb DA DR DG DB SA SR SG SB I P) as [E5 E6].
  cbv zeta in *. rewrite E1, E2, E3, E4, E5, E6.
  pose proof (result_0 o da sa sa DA) as Z1. pose proof (result_0 o dr sr sa DR) as Z2. pose proof (result_0 o dg sg sa DG) as Z3. pose proof (result_0 o db sb sa DB) as Z4.
  pose proof (result_255 o da sa sa) as F1. pose proof (result_255 o dr sr sa) as F2. pose proof (result_255 o dg sg sa) as F3. pose proof (result_255 o db sb sa) as F4.
  unfold result in *. rewrite Z1, Z2, Z3, Z4, F1, F2, F3, F4. repeat split.
Qed.
Print Assumptions C63_mask_ends.

Theorem C63_alpha_mask_ends o d s : u8 d -> u8 s -> impl8 o d s (Some 0) = d /\ impl8 o d s (Some 255) = impl8 o d s None /\ u8 (impl8 o d s None).
Proof.
  intros D S. rewrite !impl8_ok by (assumption || exact I || (unfold mask_ok, u8; lia)).
  split; [apply result_0; assumption|]. split; [apply result_255|]. apply result_u8; (assumption || lia || exact I).
Qed.
Print Assumptions C63_alpha_mask_ends.

(* C63: an opaque source replaces the destination, a transparent one leaves it alone *)
Theorem C63_src_over_ends da dr dg db sr sg sb :
  u8 da -> u8 dr -> u8 dg -> u8 db -> u8 sr -> u8 sg -> u8 sb ->
  let d := pack32 da dr dg db in
  impl64 OpSrcOver d (pack32 255 sr sg sb) None = pack32 255 sr sg sb /\ impl64 OpSrcOver d 0 None = d.
Proof.
  intros DA DR DG DB SR SG SB. cbv zeta. split.
  - pose proof (C62_pixel OpSrcOver None da dr dg db 255 sr sg sb DA DR DG DB ltac:(unfold u8; lia) SR SG SB I ltac:(unfold u8 in *; lia)) as [E _].
    rewrite E. cbv beta zeta iota. unfold blend. change (255 - 255) with 0. rewrite !scaled_0, !Z.add_0_r. reflexivity.
  - assert (U : u8 0) by (unfold u8; lia).
    pose proof (C62_pixel OpSrcOver None da dr dg db 0 0 0 0 DA DR DG DB U U U U I ltac:(lia)) as [E _].
    change (pack32 0 0 0 0) with 0 in E. rewrite E. cbv beta zeta iota. unfold blend. change (255 - 0) with 255. rewrite !scaled_255, !Z.add_0_l. reflexivity.
Qed.
Print Assumptions C63_src_over_ends.

Example C62_ex_over : impl64 OpSrcOver 0xFF102030 0x80402010 (Some 200) = 0xFF3C2C2A /\ impl32 OpSrcOver 0xFF102030 0x80402010 (Some 200) = 0xFF3C2C2A.
Proof. vm_compute. split; reflexivity. Qed.
Example C62_ex_plus : impl64 OpPlus 0xFFF0F001 0x80F00101 None = 0xFFFFF102. Proof. vm_compute. reflexivity. Qed.
Example C62_ex_copy : impl32 OpSrcCopy 0xFFFFFFFF 0x00000000 (Some 127) = 0x80808080. Proof. vm_compute. reflexivity. Qed.
Example C62_ex_alpha : impl8 OpSrcOver 100 50 (Some 128) = 115. Proof. vm_compute. reflexivity. Qed.
(* the premise of src-over: a component above alpha carries into the next one *)
Example C62_ex_not_premultiplied : impl64 OpSrcOver 0x00FFFFFF 0x000000FF None = 0x010000FE. Proof. vm_compute. reflexivity. Qed.
Example C63_ex : impl64 OpPlus 0x80808080 0x40404040 (Some 0) = 0x80808080 /\ impl64 OpPlus 0x80808080 0x90404040 (Some 255) = 0xFFC0C0C0.
Proof. vm_compute. split; reflexivity. Qed.
