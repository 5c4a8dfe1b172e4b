(* C66, C67: the reference filler of rasterized paths. *)
From Verif Require Import Base Algorithm_Model PixelOps_Model IntOps_Model Fill_Model Fill_Spec Fill_Proofs Analytic_Model Analytic_Spec Analytic_Proofs Analytic_Proofs2 Analytic_Proofs3.
Ltac Zify.zify_post_hook ::= idtac.

(* C66: FillAnalytic, run on cells and bits whose rows describe changes of the cover (row_ok), composes every pixel left of xend once, at
   its position, with the mask of its fill rule and accumulated cover, touches nothing else, and leaves all its words and cells zero for
   the next call. Rows have the sizes the render command processor gives them for a destination of dst_width pixels. *)
Theorem C66_fill_analytic {P} (comp : Z -> Z -> P -> Z -> P) comp_opaque (optimize : bool) eo alpha xend dst_width m stride y0 y1 bits cells (v : Z -> Z -> Z) :
  (optimize = true -> forall x y d, comp x y d 255 = comp_opaque x y d) -> (forall x y d, comp x y d 0 = d) ->
  0 <= alpha <= 255 -> 0 <= xend <= dst_width -> 0 < y1 - y0 < 2 ^ 32 -> image m stride dst_width y0 y1 ->
  let nw := row_words dst_width in let cs := required_width dst_width in
  (forall r, 0 <= r < y1 - y0 -> row_ok bits cells nw (r * nw) (r * cs) xend (v r)) ->
  exists bits' cells' m', fill_analytic comp comp_opaque optimize (rule_mask eo) alpha xend m stride y0 y1 (Z.to_nat nw) bits cells cs = Ok (bits', cells', m') /\
    rendered comp m m' stride dst_width y0 y1 (fun x y => if x <? xend then Some (fill_mask_of eo alpha (cover (v (y - y0)) x)) else None) /\
    cleared bits bits' 0 ((y1 - y0) * nw) /\ cleared_rows cells cells' cs xend 0 (y1 - y0).
Proof.
  intros OP O0 AL X Y [WS IM] nw cs RO. unfold fill_analytic. replace (w32 (y1 - y0)) with (y1 - y0) by (unfold w32; rewrite Z.mod_small by lia; reflexivity).
  assert (RW : dst_width < 4 * (64 * nw - 1) /\ dst_width < cs).
  { unfold nw, cs, row_words, required_width, align_up4. pose proof (Z.div_mod (dst_width + 1 + 4 + 3) 4 ltac:(lia)). pose proof (Z.mod_pos_bound (dst_width + 1 + 4 + 3) 4 ltac:(lia)).
    set (q := (dst_width + 1 + 4 + 3) / 4) in *. rewrite Z.div_mul by lia. pose proof (Z.div_mod (q + 64 - 1) 64 ltac:(lia)). pose proof (Z.mod_pos_bound (q + 64 - 1) 64 ltac:(lia)). lia. }
  destruct RW as [RW RC]. assert (NW : Z.of_nat (Z.to_nat nw) = nw) by lia.
  assert (H : exists h, Z.to_nat (y1 - y0) = S h) by (exists (Z.to_nat (y1 - y0 - 1)); lia). destruct H as [h H]. rewrite H. assert (H' : Z.of_nat (S h) = y1 - y0) by lia.
  destruct (scanlines_ok comp comp_opaque optimize OP O0 eo alpha xend dst_width stride cs y0 (Z.to_nat nw) v AL ltac:(lia) ltac:(lia) ltac:(lia) ltac:(lia) ltac:(lia) h 0 bits cells m 0)
    as (bits' & cells' & m' & E & CB & CC & R).
  - lia.
  - rewrite NW, H'. intros q Q. apply RO. lia.
  - rewrite H'. intros x q XX Q. apply IM; lia.
  - rewrite NW, H' in *. rewrite !Z.mul_0_l in E. rewrite !Z.mul_0_l in CB. rewrite !Z.add_0_r in E. exists bits', cells', m'. split; [exact E|].
    split; [|split; [exact CB|exact CC]]. replace (y0 + 0) with y0 in R by lia. replace (y0 + (y1 - y0)) with y1 in R by lia. exact R.
Qed.
Print Assumptions C66_fill_analytic.

(* C66: the bit behind the last pixel is needed: with all bits of a row in use the filler shifts a word by its size *)
Theorem C66_spare_bit_needed : exists (comp : Z -> Z -> Z -> Z -> Z) m bits cells v,
  (forall x y d, comp x y d 0 = d) /\ image m 256 256 0 1 /\ row_ok bits cells 1 0 0 256 v /\
  fill_analytic comp (fun x y d => comp x y d 255) true (rule_mask false) 255 256 m 256 0 1 1 bits cells 260 = UB.
Proof.
  exists (fun x y d m => if m =? 0 then d else m), (fun a => if (0 <=? a) && (a <? 256) then Some 0 else None),
    (fun a => if a =? 0 then Some (2 ^ 63) else None), (fun a => if (0 <=? a) && (a <? 260) then Some 0 else None), (fun _ => 0).
  assert (CZ : forall x, cover (fun _ => 0) x = 0) by (intros x; unfold cover; induction (Z.to_nat (x + 1)) as [|k IH]; cbn [sum_to]; [reflexivity|rewrite IH; reflexivity]).
  split; [reflexivity|]. split; [split; [lia|]; intros x y X Y; replace y with 0 by lia; cbn [Z.mul Z.add]; destruct (Z.leb_spec 0 x), (Z.ltb_spec x 256); try lia; discriminate|].
  split; [|vm_compute; reflexivity].
  split; [intros k K; replace k with 0 by lia; exists (2 ^ 63); split; [reflexivity|lia]|].
  split; [intros x X; cbn [Z.add]; destruct (Z.leb_spec 0 x), (Z.ltb_spec x 260); try lia; reflexivity|].
  split; [intros x X N; destruct (N eq_refl)|]. split; [intros; lia|]. split; [intros; rewrite CZ; lia|apply CZ].
Qed.
Print Assumptions C66_spare_bit_needed.

(* C67: the masks of the fill rules. A cover of 2^17 is one winding. With w whole windings non-zero filling gives alpha unless w = 0, even-odd
   filling gives alpha for odd w and 0 for even w. Masks are between 0 and alpha; covers between 0 and 1 give the same, growing, mask with
   both rules; even-odd masks repeat after two windings. The orientation of a path does not matter, up to the rounding of the cover. *)
Theorem C67_fill_rules eo alpha : 0 <= alpha <= 255 ->
  (forall w, fill_mask_of false alpha (w * 2 ^ 17) = if w =? 0 then 0 else alpha) /\
  (forall w, fill_mask_of true alpha (w * 2 ^ 17) = if Z.even w then 0 else alpha) /\
  (forall c, 0 <= fill_mask_of eo alpha c <= alpha) /\
  (forall c, 0 <= c <= 2 ^ 17 -> fill_mask_of eo alpha c = c / 512 * alpha / 256) /\
  (forall c, fill_mask_of true alpha (c + 2 ^ 18) = fill_mask_of true alpha c) /\
  (forall c, c mod 512 = 0 -> fill_mask_of eo alpha (- c) = fill_mask_of eo alpha c).
Proof.
  intros AL. unfold fill_mask_of, even_odd, non_zero, winding256. change (2 ^ 17) with 131072. change (2 ^ 18) with 262144.
  split; [|split; [|split; [|split; [|split]]]].
  - intros w. replace (w * 131072) with (w * 256 * 512) by lia. rewrite Z.div_mul by lia. destruct (Z.eqb_spec w 0) as [->|N]; [reflexivity|].
    replace (Z.min 256 (Z.abs (w * 256))) with 256 by lia. rewrite Z.mul_comm, Z.div_mul by lia. reflexivity.
  - intros w. replace (w * 131072) with (w * 256 * 512) by lia. rewrite Z.div_mul by lia. destruct (Z.even w) eqn:E.
    + apply Z.even_spec in E. destruct E as [k ->]. replace (2 * k * 256) with (k * 512) by lia. rewrite Z.mod_mul by lia. reflexivity.
    + rewrite <- Z.negb_odd in E. apply negb_false_iff, Z.odd_spec in E. destruct E as [k ->].
      replace ((2 * k + 1) * 256) with (256 + k * 512) by lia. rewrite Z_mod_plus_full. change (256 mod 512) with 256. cbn [Z.min Z.sub]. change (Z.min 256 (512 - 256)) with 256.
      rewrite Z.mul_comm, Z.div_mul by lia. reflexivity.
  - intros c. assert (R : 0 <= (if eo then Z.min ((c / 512) mod 512) (512 - (c / 512) mod 512) else Z.min 256 (Z.abs (c / 512))) <= 256).
    { destruct eo; [pose proof (Z.mod_pos_bound (c / 512) 512 ltac:(lia)); lia|lia]. }
    set (r := if eo then _ else _) in *. clearbody r. split; [apply Z.div_pos; nia|]. apply Z.div_le_upper_bound; [lia|]. nia.
  - intros c C. assert (Q : 0 <= c / 512 <= 256) by (split; [apply Z.div_pos; lia|apply Z.div_le_upper_bound; lia]). set (q := c / 512) in *. clearbody q.
    f_equal. f_equal. destruct eo; [rewrite Z.mod_small by lia; lia|lia].
  - intros c. replace (c + 262144) with (c + 512 * 512) by lia. rewrite Z.div_add by lia. replace (c / 512 + 512) with (c / 512 + 1 * 512) by lia. rewrite Z_mod_plus_full. reflexivity.
  - intros c C. apply Z.mod_divide in C; [|lia]. destruct C as [q ->]. replace (- (q * 512)) with (- q * 512) by lia. rewrite !Z.div_mul by lia.
    f_equal. f_equal. destruct eo; [|lia]. destruct (Z.eq_dec (q mod 512) 0) as [Q|Q].
    + rewrite Z.mod_opp_l_z by (try lia; exact Q). rewrite Q. reflexivity.
    + rewrite Z.mod_opp_l_nz by (try lia; exact Q). lia.
Qed.
Print Assumptions C67_fill_rules.

(* examples: a triangle like row: changes at 3..6 (partial covers) and back at 300..303 *)
Definition ex_v (r x : Z) : Z := if r =? 0 then if x =? 3 then 40000 else if x =? 4 then 91072 else if x =? 300 then -50000 else if x =? 301 then -81072 else 0 else 0.
Definition ex_bits : @mem Z := fun a => if a =? 0 then Some 3 else if a =? 1 then Some (2 ^ 11) else if (0 <=? a) && (a <? 4) then Some 0 else None.
Definition ex_cells : @mem Z := fun a => if (0 <=? a) && (a <? 2 * 312) then Some (ex_v (a / 312) (a mod 312) mod 2 ^ 32) else None.
Definition ex_m : @mem Z := fun a => if (0 <=? a) && (a <? 2 * 304) then Some 7 else None.
Definition ex_comp (x y d m : Z) : Z := if m =? 0 then d else 1000 * x + m.
Definition ex_pixels (r : outcome (@mem Z * @mem Z * @mem Z)) (l : list Z) : list (option Z) := match r with Ok (_, _, m) => map m l | _ => [] end.
Definition ex_run := fill_analytic ex_comp (fun x y d => ex_comp x y d 255) true (rule_mask false) 255 304 ex_m 304 0 2 2 ex_bits ex_cells 312.
Example C66_ex_run : ex_pixels ex_run [0; 2; 3; 4; 5; 100; 299; 300; 301; 303; 304; 607] =
  [Some 7; Some 7; Some 3077; Some 4255; Some 5255; Some 100255; Some 299255; Some 300157; Some 7; Some 7; Some 7; Some 7].
Proof. vm_compute. reflexivity. Qed.
Example C66_ex_clear : (match ex_run with Ok (b, c, _) => map b [0; 1; 2] ++ map c [3; 4; 300; 301; 304; 312] | _ => [] end) = repeat (Some 0) 9.
Proof. vm_compute. reflexivity. Qed.
Example C66_ex_size : row_words 304 = 2 /\ required_width 304 = 312.
Proof. vm_compute. split; reflexivity. Qed.
(* the rows of the example meet row_ok *)
Lemma all_upto (k : nat) (p : Z -> bool) : forallb p (map Z.of_nat (seq 0 k)) = true -> forall x, 0 <= x < Z.of_nat k -> p x = true.
Proof. intros H x X. rewrite forallb_forall in H. apply H. apply in_map_iff. exists (Z.to_nat x). split; [lia|]. apply in_seq. lia. Qed.
Example C66_ex_rows : forall r, 0 <= r < 2 -> row_ok ex_bits ex_cells (row_words 304) (r * row_words 304) (r * required_width 304) 304 (ex_v r).
Proof.
  change (row_words 304) with 2. change (required_width 304) with 312. intros r R. assert (C : r = 0 \/ r = 1) by lia.
  split; [|split; [|split; [|split; [|split]]]].
  - intros k K. assert (D : k = 0 \/ k = 1) by lia. destruct C as [-> | ->], D as [-> | ->]; eexists; (split; [reflexivity|]); lia.
  - intros x X. unfold ex_cells. destruct (Z.leb_spec 0 (r * 312 + x)), (Z.ltb_spec (r * 312 + x) (2 * 312)); try lia. cbn [andb].
    replace ((r * 312 + x) / 312) with r by (apply Z.div_unique with x; lia). replace ((r * 312 + x) mod 312) with x by (apply Z.mod_unique with r; lia). reflexivity.
  - intros x X N. pose proof (all_upto 305 (fun x => (ex_v r x =? 0) || row_bit ex_bits (r * 2) (x / 4) || ((0 <? x) && row_bit ex_bits (r * 2) ((x - 1) / 4)))
      ltac:(destruct C as [-> | ->]; vm_compute; reflexivity) x ltac:(lia)) as H. cbv beta in H. apply orb_prop in H. destruct H as [H|H].
    + apply orb_prop in H. destruct H as [H|H]; [apply Z.eqb_eq in H; contradiction|left; exact H].
    + apply andb_prop in H. destruct H as [H1 H2]. right. split; [apply Z.ltb_lt; exact H1|exact H2].
  - intros j J H. pose proof (all_upto 128 (fun j => negb (row_bit ex_bits (r * 2) j) || (4 * j <=? 304)) ltac:(destruct C as [-> | ->]; vm_compute; reflexivity) j ltac:(lia)) as Q.
    cbv beta in Q. rewrite H in Q. apply Z.leb_le. exact Q.
  - intros x X. pose proof (all_upto 305 (fun x => (- 2 ^ 30 <=? cover (ex_v r) x) && (cover (ex_v r) x <=? 2 ^ 30)) ltac:(destruct C as [-> | ->]; vm_compute; reflexivity) x ltac:(lia)) as Q.
    cbv beta in Q. apply andb_prop in Q. destruct Q as [Q1 Q2]. split; apply Z.leb_le; assumption.
  - destruct C as [-> | ->]; vm_compute; reflexivity.
Qed.
Example C67_ex : map (fill_mask_of false 255) [0; 65536; 131072; 196608; 262144; -65536] = [0; 127; 255; 255; 255; 127] /\
  map (fill_mask_of true 255) [0; 65536; 131072; 196608; 262144; -65536] = [0; 127; 255; 127; 0; 127].
Proof. vm_compute. split; reflexivity. Qed.
