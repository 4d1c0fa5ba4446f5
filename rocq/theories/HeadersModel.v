(* Concrete header bundles: the VisitFields routines of the image, frame and modular
   headers, as programs of BundleModel.v.  Float constants are binary32 bit patterns.
   A bundle is a program over the members b + 0, b + 1, ... of element ix of an array of
   bundles ([at_]); ix = 0 outside arrays. *)
From Verif Require Import Base FieldsModel BundleModel.

(* member f of the bundle at b, in array element ix.  Elements of nested arrays get
   [nest ix j]; the counts in question are below 8192. *)
Definition at_ (b ix f : Z) : Z := b + f + 4096 * ix.
Definition nest (ix j : Z) : Z := ix + 8192 * (j + 1).

(* plain fields *)
Definition idw (_ : list Z) (v : Z) : Z := v.
Definition FBool (d x : Z) : prog := Fld (CBits 1) d x [] idw idw.
Definition FBits (n d x : Z) : prog := Fld (CBits n) d x [] idw idw.
Definition FU32 (a b c e d x : Z) : prog := Fld (CU32 (U32 a b c e)) d x [] idw idw.
Definition FF16 (d x : Z) : prog := Fld CF16 d x [] idw idw.
(* a field of a member that is stored plus one *)
Definition FBits1 (n d x : Z) : prog := Fld (CBits n) d x [] (fun _ v => w32 (v - 1)) (fun _ v => w32 (v + 1)).

Fixpoint steps (l : list prog) : prog :=
  match l with [] => Done | [p] => p | p :: l' => Seq p (steps l') end.
(* expressions *)
Definition b2z (b : bool) : Z := if b then 1 else 0.
Definition E0 (v : Z) : expr := Ex [] (fun _ => v).
Definition E1 (x : Z) (f : Z -> Z) : expr := Ex [x] (fun l => f (nth 0 l 0)).
Definition E2 (x y : Z) (f : Z -> Z -> Z) : expr := Ex [x; y] (fun l => f (nth 0 l 0) (nth 1 l 0)).
Definition E3 (x y z : Z) (f : Z -> Z -> Z -> Z) : expr :=
  Ex [x; y; z] (fun l => f (nth 0 l 0) (nth 1 l 0) (nth 2 l 0)).
Definition isset (x : Z) : expr := E1 x (fun v => v).
Definition isnot (x : Z) : expr := E1 x (fun v => b2z (v =? 0)).
Definition eqc (x c : Z) : expr := E1 x (fun v => b2z (v =? c)).
Definition nec (x c : Z) : expr := E1 x (fun v => b2z (negb (v =? c))).

(* comparison of finite binary32 numbers given by their bit patterns *)
Definition f32_neg (v : Z) : bool := 2 ^ 31 <? v.                 (* v < 0.0f *)
Definition f32_nonpos (v : Z) : bool := (v =? 0) || (2 ^ 31 <=? v).  (* v <= 0.0f *)
Definition f32_key (v : Z) : Z := if v <? 2 ^ 31 then v else 2 ^ 31 - v.
Definition f32_lt (v w : Z) : bool := f32_key v <? f32_key w.

(* ---- headers.cc ---- *)

(* headers.cc:129-153 SizeHeader::VisitFields; members: 0 small, 1 ysize_div8_minus_1,
   2 ysize, 3 ratio, 4 xsize_div8_minus_1, 5 xsize *)
Definition size_u32 (x : Z) : prog := FU32 (BitsOffset 9 1) (BitsOffset 13 1) (BitsOffset 18 1) (BitsOffset 30 1) 1 x.
Definition SizeHeader (b ix : Z) : prog :=
  let m := at_ b ix in
  steps [ FBool 0 (m 0);
          If (isset (m 0)) (FBits 5 0 (m 1)) Done;
          If (isnot (m 0)) (size_u32 (m 2)) Done;
          FBits 3 0 (m 3);
          If (E2 (m 3) (m 0) (fun r s => b2z ((r =? 0) && negb (s =? 0)))) (FBits 5 0 (m 4)) Done;
          If (E2 (m 3) (m 0) (fun r s => b2z ((r =? 0) && (s =? 0)))) (size_u32 (m 5)) Done ].

(* headers.cc:155-181 PreviewHeader::VisitFields; members: 0 div8, 1 ysize_div8, 2 ysize,
   3 ratio, 4 xsize_div8, 5 xsize *)
Definition PreviewHeader (b ix : Z) : prog :=
  let m := at_ b ix in
  let div8 x := FU32 (Val 16) (Val 32) (BitsOffset 5 1) (BitsOffset 9 33) 1 x in
  let any x := FU32 (BitsOffset 6 1) (BitsOffset 8 65) (BitsOffset 10 321) (BitsOffset 12 1345) 1 x in
  steps [ FBool 0 (m 0);
          If (isset (m 0)) (div8 (m 1)) Done;
          If (isnot (m 0)) (any (m 2)) Done;
          FBits 3 0 (m 3);
          If (E2 (m 3) (m 0) (fun r s => b2z ((r =? 0) && negb (s =? 0)))) (div8 (m 4)) Done;
          If (E2 (m 3) (m 0) (fun r s => b2z ((r =? 0) && (s =? 0)))) (any (m 5)) Done ].

(* headers.cc:183-196 AnimationHeader::VisitFields; members: 0 tps_numerator,
   1 tps_denominator, 2 num_loops, 3 have_timecodes *)
Definition AnimationHeader (b ix : Z) : prog :=
  let m := at_ b ix in
  steps [ FU32 (Val 100) (Val 1000) (BitsOffset 10 1) (BitsOffset 30 1) 1 (m 0);
          FU32 (Val 1) (Val 1001) (BitsOffset 8 1) (BitsOffset 10 1) 1 (m 1);
          FU32 (Val 0) (Bits 3) (Bits 16) (Bits 32) 0 (m 2);
          FBool 0 (m 3) ].

(* headers.cc:22-46 the fixed aspect ratios and Rational::MulTruncate *)
Definition ratios : list (Z * Z) := [(1, 1); (12, 10); (4, 3); (3, 2); (16, 9); (5, 4); (2, 1)].
Definition mul_truncate (q : Z * Z) (v : Z) : Z := w32 (w64 (v * fst q) / snd q).
(* headers.cc:48-55 FindAspectRatio *)
Fixpoint find_ratio (l : list (Z * Z)) (r xsize ysize : Z) : Z :=
  match l with
  | [] => 0
  | q :: l' => if xsize =? mul_truncate q ysize then r else find_ratio l' (r + 1) xsize ysize
  end.
Definition find_aspect_ratio (xsize ysize : Z) : Z := find_ratio ratios 1 xsize ysize.
(* headers.h:38-40 and headers.cc:59-65 SizeHeader::ysize, xsize *)
Definition sh_ysize (s : env) : Z := if s 0 =? 0 then s 2 else w32 (w32 (s 1 + 1) * 8).
Definition sh_xsize (s : env) : Z :=
  if s 3 =? 0 then (if s 0 =? 0 then s 5 else w32 (w32 (s 4 + 1) * 8))
  else mul_truncate (nth (Z.to_nat (s 3 - 1)) ratios (1, 1)) (sh_ysize s).
(* headers.cc:67-94 SizeHeader::Set; None: failure *)
Definition sh_set (s : env) (xsize ysize : Z) : option env :=
  if (2 ^ 32 - 1 <? xsize) || (2 ^ 32 - 1 <? ysize) then None
  else if (xsize =? 0) || (ysize =? 0) then None
  else
    let ratio := find_aspect_ratio xsize ysize in
    let s := upd s 3 ratio in
    let small := (ysize <=? 256) && (ysize mod 8 =? 0) && (negb (ratio =? 0) || ((xsize <=? 256) && (xsize mod 8 =? 0))) in
    let s := upd s 0 (b2z small) in
    let s := if small then upd s 1 (w32 (ysize / 8 - 1)) else upd s 2 ysize in
    let s := if ratio =? 0 then (if small then upd s 4 (w32 (xsize / 8 - 1)) else upd s 5 xsize) else s in
    if negb (sh_xsize s =? xsize) then None
    else if negb (sh_ysize s =? ysize) then None
    else Some s.

(* ---- image_metadata.cc ---- *)

(* image_metadata.cc:26-65 BitDepth::VisitFields; members: 0 floating_point_sample,
   1 bits_per_sample, 2 exponent_bits_per_sample *)
Definition BitDepth (b ix : Z) : prog :=
  let m := at_ b ix in
  steps [ FBool 0 (m 0);
          Branch (isnot (m 0))
            (Seq (FU32 (Val 8) (Val 10) (Val 12) (BitsOffset 6 1) 8 (m 1)) (Assign (m 2) (E0 0)))
            (Seq (FU32 (Val 32) (Val 16) (Val 24) (BitsOffset 6 1) 32 (m 1)) (FBits1 4 7 (m 2)));
          Branch (isset (m 0))
            (Seq (Fail (E1 (m 2) (fun e => b2z ((e <? 2) || (8 <? e)))))
                 (Fail (E2 (m 1) (m 2) (fun n e => b2z ((n - e - 1 <? 2) || (23 <? n - e - 1))))))
            (Fail (E1 (m 1) (fun n => b2z (31 <? n)))) ].

(* frame_header.h:35-50 VisitNameString; members: [len] the length of the string, [chr i]
   its characters.  Simplification: the length is a member of its own (in the code it is
   name->length(), set when reading by name->resize; SetDefault, which is not reading,
   leaves the string unchanged, and is only applied to new objects with empty names). *)
Definition NameString (len : Z) (chr : Z -> Z) : prog :=
  Seq (FU32 (Val 0) (Bits 4) (BitsOffset 5 16) (BitsOffset 10 48) 0 len)
      (For (isset len) (fun i => FBits 8 0 (chr i))).

(* fields.h:205-216 Visitor::Enum; [mask] is EnumBits *)
Definition FEnum (mask d x : Z) : prog :=
  Seq (FU32 (Val 0) (Val 1) (BitsOffset 4 2) (BitsOffset 6 18) d x)
      (Fail (E1 x (fun v => b2z (negb (enum_valid mask v))))).

(* image_metadata.cc:221-262 ExtraChannelInfo::VisitFields; members: 0 type, 1.. bit_depth,
   4 dim_shift, 5 name length, 6 name characters, 7 alpha_associated, 8..11 spot_color,
   12 cfa_channel.  EnumBits: image_metadata.h:75-80 with codestream_header.h:44-62 *)
Definition ExtraChannelInfo (b ix : Z) : prog :=
  let m := at_ b ix in
  AllDef (steps [
    FEnum 0x1807F 0 (m 0);
    BitDepth (b + 1) ix;
    FU32 (Val 0) (Val 3) (Val 4) (BitsOffset 3 1) 0 (m 4);
    Fail (E1 (m 4) (fun v => b2z (8 <? Z.shiftl 1 v)));
    NameString (m 5) (fun i => at_ b (nest ix i) 6);
    If (eqc (m 0) 0) (FBool 0 (m 7)) Done;
    If (eqc (m 0) 2) (steps [FF16 0 (m 8); FF16 0 (m 9); FF16 0 (m 10); FF16 0 (m 11)]) Done;
    If (eqc (m 0) 5) (FU32 (Val 1) (Bits 2) (BitsOffset 4 3) (BitsOffset 8 19) 1 (m 12)) Done;
    Fail (E1 (m 0) (fun t => b2z ((t =? 15) || ((7 <=? t) && (t <=? 14))))) ]).

(* image_metadata.cc:385-412 ToneMapping::VisitFields; members: 0 intensity_target,
   1 min_nits, 2 relative_to_max_display, 3 linear_below *)
Definition ToneMapping (b ix : Z) : prog :=
  let m := at_ b ix in
  AllDef (steps [
    FF16 1132396544 (m 0);
    Fail (E1 (m 0) (fun v => b2z (f32_nonpos v)));
    FF16 0 (m 1);
    Fail (E2 (m 1) (m 0) (fun v t => b2z (f32_neg v || f32_lt t v)));
    FBool 0 (m 2);
    FF16 0 (m 3);
    Fail (E2 (m 3) (m 2) (fun v r => b2z (f32_neg v || (negb (r =? 0) && f32_lt 1065353216 v)))) ]).

(* image_metadata.cc:359-382 OpsinInverseMatrix::VisitFields; members: 0..8 inverse_matrix,
   9..11 opsin_biases, 12..15 quant_biases; constants of cms/opsin_params.h:36-62 and
   quantizer.h:52-57 *)
Definition opsin_defaults : list Z :=
   [1093697868; 3239960321; 3190330094; 3226485747; 1083008657; 3190330094; 3228183199;
    1076732040; 1073288237; 3145241910; 3145241910; 3145241910; 1064436340; 1064177896;
    1064515444; 1041529569].
Fixpoint f16s (l : list Z) (x : Z) : list prog :=
  match l with [] => [] | d :: l' => FF16 d x :: f16s l' (x + 1) end.
Definition OpsinInverseMatrix (b ix : Z) : prog := AllDef (steps (f16s opsin_defaults (at_ b ix 0))).

(* image_metadata.cc:98-211 the default upsampling weights *)
Definition weights2 : list Z :=
   [3163330387; 3171772421; 3173302157; 3169798683; 3150753541; 1041268577; 1049883534;
    993437983; 3162761663; 1058082231; 1025162005; 3164782590; 3170946789; 3158452571;
    3138122214].
Definition weights4 : list Z :=
   [3167103875; 3171878947; 3172419480; 3170728924; 3148716438; 3163047091; 3172053097;
    3172944416; 3171945688; 3156352342; 1047671344; 1051392205; 3157255080; 3159828174;
    3172052644; 1040555266; 1053643734; 1025627856; 3165270552; 1055929185; 3137938862;
    3161668653; 3173416597; 1044510901; 1058018199; 1032368404; 3166655196; 3172039190;
    3153549243; 3166292405; 3166805971; 995030815; 3171629600; 3160325724; 3127919434;
    3143358982; 3158218774; 3162761808; 3156187190; 3137022380; 3157490262; 3171091027;
    3174464340; 3169147866; 3151210247; 1031987493; 1047209588; 1003405958; 3164302923;
    1059906873; 1034796361; 3167726253; 3165955669; 3163071609; 3145462485].
Definition weights8 : list Z :=
   [3169839479; 3172454382; 3172662309; 3171429508; 3146952216; 3167642566; 3172578528;
    3172978247; 3172338772; 3151226074; 3165210546; 3172809468; 3173248274; 3172974293;
    3155412861; 3162848239; 3173119551; 3173367779; 3173187930; 3158875808; 1050218600;
    1052185688; 3167256803; 3157343181; 3174087116; 1047839963; 1053984740; 3149645461;
    3161299823; 3173905254; 1043588213; 1055360922; 1018915262; 3164514633; 3172123943;
    1038942485; 1056097807; 1031845009; 3168531946; 1054521862; 3166190507; 3158132649;
    3174753268; 1049813989; 1056660561; 3097853052; 3162327254; 3174753010; 1046051982;
    1057632498; 1024066431; 3165230969; 3172885583; 1041348073; 1058070797; 1034208235;
    3169623040; 3172386105; 3148983671; 3169795800; 3169087651; 3165488500; 3173088021;
    3153994137; 3167181974; 3171078891; 3165019533; 3173360783; 3157260159; 3164482630;
    3172223651; 3164715111; 3173026664; 3161362680; 3119271581; 3144417391; 3156682389;
    3158955501; 3151061555; 3124472980; 3140938983; 3156004944; 3159561306; 3153036145;
    3129820665; 3137976915; 3155291872; 3159876352; 3154467131; 3133746953; 3165543803;
    3173707146; 3175474640; 3171345306; 3148619265; 3163352516; 3173384196; 3176049680;
    3172188534; 3153188466; 3160135081; 3173150370; 3176333980; 3172745723; 3156527899;
    1044528177; 1051281723; 3159687771; 3160469938; 3173289516; 1041011376; 1052401955;
    1009281237; 3163952658; 3171538262; 1035133432; 1053003271; 1026666910; 3167677930;
    1058039713; 999698778; 3162965459; 3175625987; 1048297847; 1058982259; 1026604040;
    3166001518; 3173666800; 1042963880; 1059485724; 1036324117; 3170767058; 3173464743;
    3155440199; 3169100256; 3165486557; 1006819920; 3173231121; 3159079196; 3166097983;
    3169934253; 1008896461; 3172169652; 3163162453; 3130155759; 3146169931; 3159655827;
    3163370786; 3156707493; 3134761853; 3142398756; 3158806347; 3163583070; 3157814253;
    3138900634; 3160482813; 3172699375; 3176310682; 3170852523; 3149835900; 3157152645;
    3172190606; 3176657584; 3171566711; 3154270540; 1036332798; 1049290706; 3144145476;
    3163426760; 3170971619; 1030285425; 1049750740; 1018608370; 3166867051; 1060020465;
    1028491788; 3166576587; 3174272396; 1044186727; 1060574725; 1037913224; 3171266082;
    3172269929; 3160699966; 3167598526; 3163397152; 1029536762; 3169511746; 3164280278;
    3139295385; 3146928143; 3162900820; 3166878314; 3162079456; 3143267370; 3154532415;
    3170030369; 3174582898; 3168855594; 3150490754; 1021275663; 1044849176; 986807992;
    3166102106; 1061155977; 1038781622; 3171492564; 3162737042; 3165231656; 3147179656].
(* image_metadata.cc:78-218 CustomTransformData::VisitFields; members: 0
   nonserialized_xyb_encoded, 1 custom_weights_mask, 10..25 opsin_inverse_matrix,
   100.. upsampling2_weights, 200.. upsampling4_weights, 300.. upsampling8_weights *)
Definition CustomTransformData (b ix : Z) : prog :=
  let m := at_ b ix in
  AllDef (steps [
    If (isset (m 0)) (OpsinInverseMatrix (b + 10) ix) Done;
    FBits 3 0 (m 1);
    If (E1 (m 1) (fun v => Z.land v 1)) (steps (f16s weights2 (m 100))) Done;
    If (E1 (m 1) (fun v => Z.land v 2)) (steps (f16s weights4 (m 200))) Done;
    If (E1 (m 1) (fun v => Z.land v 4)) (steps (f16s weights8 (m 300))) Done ]).

(* ---- loop_filter.cc ---- *)

(* loop_filter.cc:18-100 LoopFilter::VisitFields; members: 0 gab, 1 gab_custom, 2..7 the
   gaborish weights x1 x2 y1 y2 b1 b2, 8 epf_iters, 9 epf_sharp_custom, 10..17
   epf_sharp_lut, 18 epf_weight_custom, 19..21 epf_channel_scale, 22 epf_pass1_zeroflush,
   23 epf_pass2_zeroflush, 24 epf_sigma_custom, 25 epf_quant_mul,
   26 epf_pass0_sigma_scale, 27 epf_pass2_sigma_scale, 28 epf_border_sad_mul,
   29 epf_sigma_for_modular, 30 extensions, 31 nonserialized_is_modular.
   The float test std::abs(1.0f + (w1 + w2) * 4) < 1e-8 of a pair of weights: for weights
   that are half-precision numbers (multiples of 2^-24) the float expression is below 1e-8
   only if it is exactly zero, and no rounding takes place in that case; [gab_bad] is the
   exact test.  Simplification for other weights, which no decoder can produce. *)
Definition gab_bad (v w : Z) : bool := 4 * (f32_scaled v + f32_scaled w) + f32_scaled 1065353216 =? 0.
Definition gab1 : Z := 1038867968.
Definition gab2 : Z := 1031462862.
Definition LoopFilter (b ix : Z) : prog :=
  let m := at_ b ix in
  let pair x y := [FF16 gab1 x; FF16 gab2 y; Fail (E2 x y (fun v w => b2z (gab_bad v w)))] in
  AllDef (Seq (steps [
    FBool 1 (m 0);
    If (isset (m 0))
      (Seq (FBool 0 (m 1))
           (If (isset (m 1)) (steps (pair (m 2) (m 3) ++ pair (m 4) (m 5) ++ pair (m 6) (m 7))) Done)) Done;
    FBits 2 2 (m 8);
    If (E1 (m 8) (fun v => b2z (0 <? v)))
      (steps [
        If (isnot (m 31))
          (Seq (FBool 0 (m 9))
               (If (isset (m 9)) (steps (f16s [0; 1041385765; 1049774373; 1054567863; 1058162981; 1060559726; 1062956471; 1065353216] (m 10))) Done)) Done;
        FBool 0 (m 18);
        If (isset (m 18)) (steps [FF16 1109393408 (m 19); FF16 1084227584 (m 20); FF16 1080033280 (m 21);
                                  FF16 1055286886 (m 22); FF16 1058642330 (m 23)]) Done;
        FBool 0 (m 24);
        If (isset (m 24)) (steps [If (isnot (m 31)) (FF16 1055622431 (m 25)) Done;
                                  FF16 1063675494 (m 26); FF16 1087373312 (m 27); FF16 1059760811 (m 28)]) Done;
        If (isset (m 31)) (Seq (FF16 1065353216 (m 29)) (Fail (E1 (m 29) (fun v => b2z (f32_lt v 841731192))))) Done ]) Done ])
    (Ext (m 30))).

(* ---- frame_header.cc ---- *)

(* frame_header.cc:65-93 BlendingInfo::VisitFields with VisitBlendMode (33-47); members:
   0 mode, 1 alpha_channel, 2 clamp, 3 source, 4 nonserialized_num_extra_channels,
   5 nonserialized_is_partial_frame *)
Definition BlendingInfo (b ix : Z) : prog :=
  let m := at_ b ix in
  let alpha md n := (0 <? n) && ((md =? 2) || (md =? 3)) in
  steps [
    FU32 (Val 0) (Val 1) (Val 2) (BitsOffset 2 3) 0 (m 0);
    Fail (E1 (m 0) (fun v => b2z (4 <? v)));
    If (E2 (m 0) (m 4) (fun md n => b2z (alpha md n)))
      (Seq (FU32 (Val 0) (Val 1) (Val 2) (BitsOffset 3 3) 0 (m 1))
           (FailReading (E2 (m 1) (m 4) (fun a n => b2z (n <=? a))))) Done;
    If (E2 (m 0) (m 4) (fun md n => b2z (alpha md n || (md =? 4)))) (FBool 0 (m 2)) Done;
    If (E2 (m 0) (m 5) (fun md p => b2z (negb (md =? 0) || negb (p =? 0))))
      (FU32 (Val 0) (Val 1) (Val 2) (Val 3) 0 (m 3)) Done ].

(* frame_header.cc:120-133 AnimationFrame::VisitFields; members: 0 duration, 1 timecode,
   2 metadata->m.have_animation, 3 metadata->m.animation.have_timecodes (metadata given) *)
Definition AnimationFrame (b ix : Z) : prog :=
  let m := at_ b ix in
  steps [ If (isset (m 2)) (FU32 (Val 0) (Val 1) (Bits 8) (Bits 32) 0 (m 0)) Done;
          If (isset (m 3)) (FBits 32 0 (m 1)) Done ].

(* frame_header.cc:137-177 Passes::VisitFields; members: 0 num_passes, 1 num_downsample,
   10.. shift, 30.. downsample, 40.. last_pass (kMaxNumPasses = 11).  The assignment
   shift[num_passes - 1] = 0 is a case distinction on num_passes. *)
Definition Passes (b ix : Z) : prog :=
  let m := at_ b ix in
  steps [
    FU32 (Val 1) (Val 2) (Val 3) (BitsOffset 3 4) 1 (m 0);
    Fail (E1 (m 0) (fun n => b2z (11 <? n)));
    If (nec (m 0) 1)
      (steps [
        FU32 (Val 0) (Val 1) (Val 2) (BitsOffset 1 3) 0 (m 1);
        Fail (E1 (m 1) (fun d => b2z (4 <? d)));
        Fail (E2 (m 1) (m 0) (fun d n => b2z (n <? d)));
        For (E1 (m 0) (fun n => n - 1)) (fun i => FBits 2 0 (m (10 + i)));
        fold_right (fun k q => Branch (eqc (m 0) k) (Assign (m (10 + (k - 1))) (E0 0)) q) Done
                   [1; 2; 3; 4; 5; 6; 7; 8; 9; 10; 11];
        For (isset (m 1)) (fun i =>
          Seq (FU32 (Val 1) (Val 2) (Val 4) (Val 8) 1 (m (30 + i)))
              (if 0 <? i then Fail (E2 (m (30 + i)) (m (30 + (i - 1))) (fun v w => b2z (w <=? v))) else Done));
        For (isset (m 1)) (fun i =>
          steps [ FU32 (Val 0) (Val 1) (Val 2) (Bits 3) 0 (m (40 + i));
                  if 0 <? i then Fail (E2 (m (40 + i)) (m (40 + (i - 1))) (fun v w => b2z (v <=? w))) else Done;
                  Fail (E2 (m (40 + i)) (m 0) (fun v n => b2z (n <=? v))) ]) ]) Done ].

(* frame_header.h:87-94 YCbCrChromaSubsampling::VisitFields (three 2-bit modes) *)
Definition YCbCrChromaSubsampling (b ix : Z) : prog :=
  let m := at_ b ix in
  steps [FBits 2 0 (m 0); FBits 2 0 (m 1); FBits 2 0 (m 2)].

(* quantizer.cc:125-133 QuantizerParams::VisitFields; members: 0 global_scale, 1 quant_dc *)
Definition QuantizerParams (b ix : Z) : prog :=
  let m := at_ b ix in
  Seq (FU32 (BitsOffset 11 1) (BitsOffset 11 2049) (BitsOffset 12 4097) (BitsOffset 16 8193) 1 (m 0))
      (FU32 (Val 16) (BitsOffset 5 1) (BitsOffset 8 1) (BitsOffset 16 1) 1 (m 1)).

(* dec_ans.cc:308-316 LZ77Params::VisitFields; members: 0 enabled, 1 min_symbol,
   2 min_length *)
Definition LZ77Params (b ix : Z) : prog :=
  let m := at_ b ix in
  Seq (FBool 0 (m 0))
      (If (isset (m 0))
         (Seq (FU32 (Val 224) (Val 512) (Val 4096) (BitsOffset 15 8) 224 (m 1))
              (FU32 (Val 3) (Val 4) (BitsOffset 2 5) (BitsOffset 8 9) 3 (m 2))) Done).

(* ---- modular ---- *)

(* modular/encoding/context_predict.h:38-62 weighted::Header::VisitFields; members: 0 p1C,
   1 p2C, 2 p3Ca, 3 p3Cb, 4 p3Cc, 5 p3Cd, 6 p3Ce, 7..10 w *)
Definition WPHeader (b ix : Z) : prog :=
  let m := at_ b ix in
  AllDef (steps [
    FBits 5 16 (m 0); FBits 5 10 (m 1); FBits 5 7 (m 2); FBits 5 7 (m 3); FBits 5 7 (m 4);
    FBits 5 0 (m 5); FBits 5 0 (m 6);
    FBits 4 13 (m 7); FBits 4 12 (m 8); FBits 4 12 (m 9); FBits 4 12 (m 10) ]).

(* modular/transform/squeeze_params.cc:15-24 SqueezeParams::VisitFields; members:
   0 horizontal, 1 in_place, 2 begin_c, 3 num_c *)
Definition SqueezeParams (b ix : Z) : prog :=
  let m := at_ b ix in
  steps [ FBool 0 (m 0); FBool 0 (m 1);
          FU32 (Bits 3) (BitsOffset 6 8) (BitsOffset 10 72) (BitsOffset 13 1096) 0 (m 2);
          FU32 (Val 1) (Val 2) (Val 3) (BitsOffset 4 4) 2 (m 3) ].

(* modular/transform/transform.cc:36-89 Transform::VisitFields; members: 0 id (RCT 0,
   Palette 1, Squeeze 2, Invalid 3), 1 begin_c, 2 rct_type, 3 num_c, 4 nb_colors,
   5 nb_deltas, 6 predictor (Best is 14), 7 the number of squeezes, 8.. squeezes.
   Simplification: as for names, the number of squeezes is a member. *)
Definition Transform (b ix : Z) : prog :=
  let m := at_ b ix in
  steps [
    FU32 (Val 0) (Val 1) (Val 2) (Val 3) 0 (m 0);
    Fail (eqc (m 0) 3);
    If (E1 (m 0) (fun t => b2z ((t =? 0) || (t =? 1))))
      (FU32 (Bits 3) (BitsOffset 6 8) (BitsOffset 10 72) (BitsOffset 13 1096) 0 (m 1)) Done;
    If (eqc (m 0) 0)
      (Seq (FU32 (Val 6) (Bits 2) (BitsOffset 4 2) (BitsOffset 6 10) 6 (m 2))
           (Fail (E1 (m 2) (fun v => b2z (42 <=? v))))) Done;
    If (eqc (m 0) 1)
      (steps [ FU32 (Val 1) (Val 3) (Val 4) (BitsOffset 13 1) 3 (m 3);
               FU32 (BitsOffset 8 0) (BitsOffset 10 256) (BitsOffset 12 1280) (BitsOffset 16 5376) 256 (m 4);
               FU32 (Val 0) (BitsOffset 8 1) (BitsOffset 10 257) (BitsOffset 16 1281) 0 (m 5);
               FBits 4 0 (m 6);
               Fail (E1 (m 6) (fun v => b2z (14 <=? v))) ]) Done;
    If (eqc (m 0) 2)
      (Seq (FU32 (Val 0) (BitsOffset 4 1) (BitsOffset 6 9) (BitsOffset 8 41) 0 (m 7))
           (For (isset (m 7)) (fun i => SqueezeParams (b + 8) (nest ix i)))) Done ].

(* modular/encoding/encoding.h:37-49 GroupHeader::VisitFields; members: 0 use_global_tree,
   10.. wp_header, 1 the number of transforms, 30.. transforms *)
Definition GroupHeader (b ix : Z) : prog :=
  let m := at_ b ix in
  steps [
    FBool 0 (m 0);
    WPHeader (b + 10) ix;
    FU32 (Val 0) (Val 1) (BitsOffset 4 2) (BitsOffset 8 18) 0 (m 1);
    For (isset (m 1)) (fun i => Transform (b + 30) (nest ix i)) ].
