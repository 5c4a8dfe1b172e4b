(* Properties of the colour tables of gradients. *)
From Verif Require Import Base PixelOps_Model PixelOps_Spec Interp_Model Interp_Spec Interp_Proofs Interp_Proofs2 Interp_Proofs3 Interp_Proofs4.
Ltac Zify.zify_post_hook ::= idtac.

(* The colours a 32-bit table is made of: the upper bytes of the components. *)
Definition top_bytes (c : Z) : Z := pack 8 (chan 16 c 3 / 256) (chan 16 c 2 / 256) (chan 16 c 1 / 256) (chan 16 c 0 / 256).
Definition top_stops (l : list (Z * Z)) : list (Z * Z) := map (fun s => (fst s, top_bytes (snd s))) l.
Lemma top_bytes_eq c : rgba32_of_rgba64 c = top_bytes c.
Proof. rewrite conv32. reflexivity. Qed.
Lemma top_stops_eq l : stops32 l = top_stops l.
Proof. unfold stops32, top_stops. apply map_ext. intros s. rewrite top_bytes_eq. reflexivity. Qed.
(* What a call needs: a table, stops in order, positions inside of the table, 64-bit colours. *)
Definition request (n limit : Z) (stops : list (Z * Z)) : Prop :=
  stops <> [] /\ 1 <= n <= limit /\ ordered 0 ((n - 1) * 256) stops /\ Forall (fun s => 0 <= snd s < 2 ^ 64) stops.
Definition entry (t : list Z) (k : Z) : Z := nth (Z.to_nat k) t 0.
Definition first_color (stops : list (Z * Z)) : Z := snd (hd (0, 0) stops).

Definition red_half : Z := 0x8000FFFF00000000.
Definition blue_solid : Z := 0xFFFF00000000FFFF.
Definition two_stops : list (Z * Z) := [(256, red_half); (1024, blue_solid)].
Lemma two_stops_request limit : 8 <= limit -> request 8 limit two_stops.
Proof.
  intros H. split; [discriminate|]. split; [lia|]. split; [cbn [two_stops ordered]; lia|].
  unfold two_stops, red_half, blue_solid. repeat constructor; cbn [snd]; lia.
Qed.

(* C89: the whole table is written, nothing outside of it, and every entry shows the stops. *)
Theorem C89_table32 t stops : let n := Z.of_nat (length t) in request n (2 ^ 22) stops ->
  exists t', interpolate32 t n stops = Ok t' /\ length t' = length t /\
  entry t' 0 = stop_pixel 8 (top_bytes (first_color stops)) /\
  forall k, 0 < k < n -> shows 8 ((0, top_bytes (first_color stops)) :: top_stops stops) k (entry t' k).
Proof.
  intros n (NE & L & O & C). destruct (table32 t stops NE L O C) as (t' & E & L' & G & S). exists t'.
  rewrite top_stops_eq, top_bytes_eq in *. auto.
Qed.
Print Assumptions C89_table32.
Theorem C89_table64 t stops : let n := Z.of_nat (length t) in request n (2 ^ 14) stops ->
  exists t', interpolate64 t n stops = Ok t' /\ length t' = length t /\
  entry t' 0 = stop_pixel 16 (first_color stops) /\
  forall k, 0 < k < n -> shows 16 ((0, first_color stops) :: stops) k (entry t' k).
Proof. intros n (NE & L & O & C). exact (table64 t stops NE L O C). Qed.
Print Assumptions C89_table64.
Example C89_ex32 : request 8 (2 ^ 22) two_stops /\
  interpolate32 (repeat 0 8) 8 two_stops = Ok [0x80800000; 0x80800000; 0xAA710039; 0xD547008E; 0xFF0000FF; 0xFF0000FF; 0xFF0000FF; 0xFF0000FF].
Proof. split; [apply two_stops_request; lia|vm_compute; reflexivity]. Qed.
Example C89_ex64 : request 8 (2 ^ 14) two_stops /\
  (let* t := interpolate64 (repeat 0 8) 8 two_stops in Ok (map (entry t) [0; 1; 2; 4; 7])) =
  Ok [0x8000800000000000; 0x8000800000000000; 0xAAAA71C7000038E3; 0xFFFF00000000FFFF; 0xFFFF00000000FFFF].
Proof. split; [apply two_stops_request; lia|vm_compute; reflexivity]. Qed.

(* C90: a stop shows its own colour, exactly; so do the entries before the first and behind the last stop. *)
Definition settled (w n : Z) (stops : list (Z * Z)) (color : Z -> Z) (t : list Z) : Prop :=
  (forall l p c r, stops = l ++ (p, c) :: r -> Forall (fun s => p / 256 < fst s / 256) r -> 0 < p / 256 ->
     entry t (p / 256) = stop_pixel w (color c)) /\
  (forall p c r k, stops = (p, c) :: r -> 0 <= k < p / 256 -> entry t k = stop_pixel w (color c)) /\
  (forall l p c k, stops = l ++ [(p, c)] -> p / 256 <= k -> 0 < k < n -> entry t k = stop_pixel w (color c)).
Lemma settled_by w n stops color t : ordered 0 ((n - 1) * 256) stops -> 
  entry t 0 = stop_pixel w (color (first_color stops)) ->
  (forall k, 0 < k < n -> shows w ((0, color (first_color stops)) :: map (fun s => (fst s, color (snd s))) stops) k (entry t k)) ->
  settled w n stops color t.
Proof.
  intros O E0 S. assert (IN : forall p c, In (p, c) stops -> p / 256 < n).
  { intros p c HI. pose proof (proj1 (Forall_forall _ _) (ordered_from _ _ _ O) _ HI) as R. cbn [fst] in R. apply Z.div_lt_upper_bound; lia. }
  split; [|split].
  - intros l p c r -> F Hp. assert (Hn : p / 256 < n) by (apply (IN p c); apply in_or_app; right; left; reflexivity).
    specialize (S (p / 256) (conj Hp Hn)). rewrite map_app in S. cbn [map fst snd] in S. rewrite app_comm_cons in S.
    eapply shows_stop; [reflexivity| |exact S]. apply Forall_map. exact F.
  - intros p c r k -> Hk. destruct (Z.eq_dec k 0) as [-> | N]; [exact E0|]. assert (Hn : p / 256 < n) by (apply (IN p c); left; reflexivity).
    specialize (S k ltac:(lia)). cbn [map fst snd first_color hd] in S. eapply shows_before; [| | |exact S]; [lia|lia|].
    apply Forall_map. destruct O as [_ O]. eapply Forall_impl; [|exact (ordered_from _ _ _ O)]. intros s Hs. cbv beta in *. cbn [fst]. lia.
  - intros l p c k -> Hp Hk. specialize (S k Hk). rewrite map_app in S. cbn [map fst snd] in S. rewrite app_comm_cons in S. eapply shows_after; eassumption.
Qed.
Theorem C90_stops32 t stops : let n := Z.of_nat (length t) in request n (2 ^ 22) stops ->
  exists t', interpolate32 t n stops = Ok t' /\ settled 8 n stops top_bytes t'.
Proof. intros n R. destruct (C89_table32 t stops R) as (t' & E & _ & G & S). exists t'. split; [exact E|]. apply settled_by; [apply R|exact G|exact S]. Qed.
Print Assumptions C90_stops32.
Theorem C90_stops64 t stops : let n := Z.of_nat (length t) in request n (2 ^ 14) stops ->
  exists t', interpolate64 t n stops = Ok t' /\ settled 16 n stops (fun c => c) t'.
Proof.
  intros n R. destruct (C89_table64 t stops R) as (t' & E & _ & G & S). exists t'. split; [exact E|]. apply settled_by; [apply R|exact G|].
  intros k Hk. replace (map (fun s => (fst s, snd s)) stops) with stops; [exact (S k Hk)|]. clear. induction stops as [|[p c] l IH]; cbn [map fst snd]; [reflexivity|]. f_equal. exact IH.
Qed.
Print Assumptions C90_stops64.
(* a hard edge: of the two stops at entry 2 the last one is shown, up to it the colours run towards the first one *)
Example C90_ex : let stops := [(0, red_half); (512, blue_solid); (512, red_half); (1024, red_half)] in
  request 5 (2 ^ 14) stops /\ interpolate32 (repeat 0 5) 5 stops = Ok [0x80800000; 0xC0600060; 0x80800000; 0x80800000; 0x80800000].
Proof.
  split; [|vm_compute; reflexivity]. split; [discriminate|]. split; [lia|]. split; [cbn [ordered]; lia|].
  unfold red_half, blue_solid. repeat constructor; cbn [snd]; lia.
Qed.

(* C91: every entry is a premultiplied pixel, no component exceeds its alpha; no entry is more transparent than the most
   transparent stop: opaque stops make an opaque table, which allows to draw it without blending. *)
Definition pixel_ok (w lo v : Z) : Prop :=
  exists a r g b, v = pack w a r g b /\ 0 <= r <= a /\ 0 <= g <= a /\ 0 <= b <= a /\ lo <= a <= 2 ^ w - 1.
Definition alpha_from (w lo : Z) (color : Z -> Z) (stops : list (Z * Z)) : Prop := Forall (fun s => lo <= chan w (color (snd s)) 3) stops.
Lemma pixels_by w n lo stops color t : 1 <= w -> stops <> [] -> 0 <= lo -> alpha_from w lo color stops ->
  entry t 0 = stop_pixel w (color (first_color stops)) ->
  (forall k, 0 < k < n -> shows w ((0, color (first_color stops)) :: map (fun s => (fst s, color (snd s))) stops) k (entry t k)) ->
  forall k, 0 <= k < n -> pixel_ok w lo (entry t k).
Proof.
  intros Hw NE Hlo A E0 S k Hk. assert (A0 : lo <= chan w (color (first_color stops)) 3) by (destruct stops; [congruence|]; inversion A; subst; assumption).
  destruct (Z.eq_dec k 0) as [-> | N]; [rewrite E0; apply stop_good; lia|]. eapply shows_good; [exact Hw|exact Hlo| |apply S; lia].
  constructor; [exact A0|]. apply Forall_map. exact A.
Qed.
Theorem C91_pixels32 t stops lo : let n := Z.of_nat (length t) in request n (2 ^ 22) stops -> 0 <= lo -> alpha_from 8 lo top_bytes stops ->
  exists t', interpolate32 t n stops = Ok t' /\ forall k, 0 <= k < n -> pixel_ok 8 lo (entry t' k).
Proof. intros n R Hlo A. destruct (C89_table32 t stops R) as (t' & E & _ & G & S). exists t'. split; [exact E|]. eapply pixels_by; [lia|apply R|exact Hlo|exact A|exact G|exact S]. Qed.
Print Assumptions C91_pixels32.
Theorem C91_pixels64 t stops lo : let n := Z.of_nat (length t) in request n (2 ^ 14) stops -> 0 <= lo -> alpha_from 16 lo (fun c => c) stops ->
  exists t', interpolate64 t n stops = Ok t' /\ forall k, 0 <= k < n -> pixel_ok 16 lo (entry t' k).
Proof.
  intros n R Hlo A. destruct (C89_table64 t stops R) as (t' & E & _ & G & S). exists t'. split; [exact E|]. eapply pixels_by with (color := fun c => c); [lia|apply R|exact Hlo|exact A|exact G|].
  intros k Hk. replace (map (fun s => (fst s, snd s)) stops) with stops; [exact (S k Hk)|]. clear. induction stops as [|[p c] l IH]; cbn [map fst snd]; [reflexivity|]. f_equal. exact IH.
Qed.
Print Assumptions C91_pixels64.
(* opaque stops *)
Theorem C91_opaque32 t stops : let n := Z.of_nat (length t) in request n (2 ^ 22) stops -> alpha_from 8 255 top_bytes stops ->
  exists t', interpolate32 t n stops = Ok t' /\ forall k, 0 <= k < n -> chan 8 (entry t' k) 3 = 255.
Proof.
  intros n R A. destruct (C91_pixels32 t stops 255 R ltac:(lia) A) as (t' & E & P). exists t'. split; [exact E|]. intros k Hk.
  destruct (P k Hk) as (a & r & g & b & -> & Hr & Hg & Hb & Ha). change (2 ^ 8) with 256 in Ha. unfold chan, pack.
  change (2 ^ (8 * 3)) with 16777216. change (2 ^ (8 * 2)) with 65536. change (2 ^ 8) with 256. Z.div_mod_to_equations. lia.
Qed.
Print Assumptions C91_opaque32.
Theorem C91_opaque64 t stops : let n := Z.of_nat (length t) in request n (2 ^ 14) stops -> alpha_from 16 65535 (fun c => c) stops ->
  exists t', interpolate64 t n stops = Ok t' /\ forall k, 0 <= k < n -> chan 16 (entry t' k) 3 = 65535.
Proof.
  intros n R A. destruct (C91_pixels64 t stops 65535 R ltac:(lia) A) as (t' & E & P). exists t'. split; [exact E|]. intros k Hk.
  destruct (P k Hk) as (a & r & g & b & -> & Hr & Hg & Hb & Ha). change (2 ^ 16) with 65536 in Ha. unfold chan, pack.
  change (2 ^ (16 * 3)) with 281474976710656. change (2 ^ (16 * 2)) with 4294967296. change (2 ^ 16) with 65536. Z.div_mod_to_equations. lia.
Qed.
Print Assumptions C91_opaque64.
Example C91_ex : let stops := [(0, blue_solid); (1024, 0xFFFFFFFF12340000)] in
  request 5 (2 ^ 14) stops /\ alpha_from 8 255 top_bytes stops /\ alpha_from 16 65535 (fun c => c) stops /\
  interpolate32 (repeat 0 5) 5 stops = Ok [0xFF0000FF; 0xFF4005BF; 0xFF800980; 0xFFBF0E40; 0xFFFF1200].
Proof.
  split; [|split; [|split; [|vm_compute; reflexivity]]].
  - split; [discriminate|]. split; [lia|]. split; [cbn [ordered]; lia|]. unfold blue_solid. repeat constructor; cbn [snd]; lia.
  - repeat constructor; vm_compute; discriminate.
  - repeat constructor; vm_compute; discriminate.
Qed.
Example C91_ex_alpha : alpha_from 8 128 top_bytes two_stops /\ ~ alpha_from 8 129 top_bytes two_stops.
Proof.
  split; [repeat constructor; vm_compute; discriminate|]. intros H. inversion H as [|? ? H1 _]; subst. vm_compute in H1. apply H1. reflexivity.
Qed.
