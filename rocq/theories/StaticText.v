(** The texts that depend on the driver name only: driver config template, canmonitorutil.h and
    dbccodeconf.h templates. *)

From Coq Require Import ZArith NArith List String Ascii Bool.
From Verif Require Import Base Writer Settings.
Import ListNotations.
Open Scope string_scope.

(** ConfigGenerator::FillHeader, config-generator.cpp 3-133 *)
Definition config_header_text (g : gendesc) : list string :=
  [ L "#pragma once";
    L "";
    L "/* include common dbccode configurations */";
    L "#include ""dbccodeconf.h""";
    L "";
    L "";
    L "/* ------------------------------------------------------------------------- *";
    L "  This define enables using CAN message structs with bit-fielded signals";
    L "  layout.";
    L "";
    L "  Note(!): bit-feild was not tested properly. */";
    L "";
    L ("/* #define " ++ n_usebits g ++ " */");
    nls 2;
    L "/* ------------------------------------------------------------------------- *";
    L "  This macro enables using CAN message descriptive struct packing functions";
    L "  (by default signature of pack function intakes a few simple typed params";
    L "  for loading data, len, etc). To compile you need to define the struct";
    L "  __CoderDbcCanFrame_t__ which must have fields:";
    L "";
    L "    u32 MsgId (CAN Frame message ID)";
    L "    u8 DLC (CAN Frame payload length field)";
    L "    u8 Data[8] (CAN Frame payload data)";
    L "    u8 IDE (CAN Frame Extended (1) / Standard (0) ID type)";
    L "";
    L "  This struct definition have to be placed (or be included) in dbccodeconf.h */";
    L "";
    L ("/* #define " ++ n_usestruct g ++ " */");
    nls 2;
    L "/* ------------------------------------------------------------------------- *";
    L "  All the signals which have values of factor != 1 or offset != 0";
    L "  will be named in message struct with posfix '_ro'. Pack to payload";
    L "  operations will be made on this signal value as well as unpack from payload.";
    L "";
    L "  USE_SIGFLOAT macro makes some difference:";
    L "";
    L "  1. All the '_ro' fields will have a pair field with '_phys' postfix.";
    L "  If only offset != 0 is true then the type of '_phys' signal is the same";
    L "  as '_ro' signal. In other case the type will be @sigfloat_t which";
    L "  have to be defined in user dbccodeconf.h";
    L "";
    L "  2. In pack function '_ro' signal will be rewritten by '_phys' signal, which";
    L "  requires from user to use ONLY '_phys' signal for packing frame";
    L "";
    L "  3. In unpack function '_phys' signal will be written by '_ro' signal.";
    L "  User have to use '_phys' signal to read physical value. */";
    L "";
    L ("/* #define " ++ n_usesigfloat g ++ " */");
    nls 2;
    L "/* ------------------------------------------------------------------------- *";
    L "  Note(!) that the ""canmonitorutil.h"" must be accessed in include path:";
    L "";
    L "  This macro adds:";
    L "";
    L "  - monitor field @mon1 to message struct";
    L "";
    L "  - capture system tick in unpack function and save value to mon1 field";
    L "  to provide to user better missing frame detection code. For this case";
    L "  user must provide function declared in canmonitorutil.h - GetSysTick()";
    L "  which may return 1ms uptime.";
    L "";
    L "  - calling function FMon_***  (from 'fmon' driver) inside unpack function";
    L "  which is empty by default and have to be filled by user if";
    L "  tests for DLC, rolling, checksum are necessary */";
    L "";
    L ("/* #define " ++ n_usemon g ++ " */");
    nls 2;
    L "/* ------------------------------------------------------------------------- *";
    L ("  When monitor using is enabled (" ++ n_usemon g ++ ") and define below");
    L "  uncommented, additional signal will be added to message struct. ***_expt:";
    L "  expected rolling counter, to perform monitoring rolling counter sequence";
    L "  automatically (result may be tested in dedicated Fmon_*** function) */";
    L "";
    L ("/* #define " ++ n_useroll g ++ " */");
    nls 2;
    L "/* ------------------------------------------------------------------------- *";
    L ("  When monitor using is enabled (" ++ n_usemon g ++ ") and define below");
    L "  uncommented, frame checksum signal may be handled automatically.";
    L "";
    L "  The signal which may be marked as checksum signal must have substring";
    L "  with next format:";
    L "    <Checksum:XOR8:3>";
    L "";
    L "  where:";
    L "";
    L "  - ""Checksum"": constant marker word";
    L "";
    L "  - ""XOR8"": type of method, this text will be passed to GetFrameHash";
    L "  (canmonitorutil.h) function as is, the best use case is to define 'enum";
    L "  DbcCanCrcMethods' in canmonitorutil.h file with all possible";
    L "  checksum algorithms (e.g. XOR8, XOR4 etc)";
    L "";
    L "  - ""3"": optional value that will be passed to GetFrameHash as integer value";
    L "";
    L "  Function GetFrameHash have to be implemented by user";
    L "";
    L "  In pack function checksum signal will be calculated automatically";
    L "  and loaded to payload";
    L "";
    L "  In unpack function checksum signal is checked with calculated.";
    L "  (result may be tested in dedicated Fmon_*** function). */";
    L "";
    L ("/* #define " ++ n_usecsm g ++ " */");
    nls 2;
    L "/* ------------------------------------------------------------------------- *";
    L "  FMon handling model can be build in two ways: ";
    L "";
    L "  1 - Default. In this case when specific frame unpack is called the ";
    L "  specific FMon_{Frame name}_{driver name} functoin will be called.";
    L "  User's code scope has to define each of these functions. Each function is";
    L "  responsible for the error handling of one frame";
    L "";
    L "  2 - MONO. In this case there is only one function to perform any frame ";
    L "  monitoring. This function has to be implemented in the user's code scope.";
    L "  This function is named as FMon_MONO_{driver name}. It takes frame id";
    L "  which can be used for selection of the logic for a frame monitoring.";
    L "  This mode costs a bit more in runtime but when you often edit you DBC and you ";
    L "  have more than one project it could be more maintanable (there is";
    L "  no necessity to replace source code)";
    L "";
    L "  For using MONO way uncomment line below */";
    L ("/* #define " ++ n_usemono g ++ " */") ].

(** Gen_CanMonUtil, c-main-generator.cpp 460-517 *)
Definition canmonutil_text (g : gendesc) : list string :=
  [ n_cominfo g;
    L "#pragma once";
    L "";
    L "#include <stdint.h>";
    L "";
    L "#ifdef __cplusplus";
    L "extern ""C"" {";
    L "#endif";
    L "";
    L "// declare here all availible checksum algorithms";
    L "typedef enum";
    L "{";
    L "  // XOR8 = 0,";
    L "  // XOR4 = 1,";
    L "  // etc";
    L "";
    L "  // it is up to user to have or to skip final enum value - @CRC_ALG_COUNT";
    L "  CRC_ALG_COUNT";
    L "} DbcCanCrcMethods;";
    L "";
    L "typedef struct";
    L "{";
    L "  // @last_cycle keeps tick-value when last frame was received";
    L "  uint32_t last_cycle;";
    L "";
    L "  // @timeout_cycle keeps maximum timeout for frame, user responsibility";
    L "  // to init this field and use it in missing frame monitoring function";
    L "  uint32_t timeout_cycle;";
    L "";
    L "  // @frame_cnt keeps count of all the received frames";
    L "  uint32_t frame_cnt;";
    L "";
    L "  // setting up @roll_error bit indicates roll counting fail.";
    L "  // Bit is not clearing automatically!";
    L "  uint32_t roll_error : 1;";
    L "";
    L "  // setting up @checksum_error bit indicates checksum checking failure.";
    L "  // Bit is not clearing automatically!";
    L "  uint32_t csm_error : 1;";
    L "";
    L "  // setting up @cycle_error bit indicates that time was overrunned.";
    L "  // Bit is not clearing automatically!";
    L "  uint32_t cycle_error : 1;";
    L "";
    L "  // setting up @dlc_error bit indicates that the actual length of";
    L "  // CAN frame is less then defined by CAN matrix!";
    L "  uint32_t dlc_error : 1;";
    L "";
    L "} FrameMonitor_t;";
    L "";
    L "#ifdef __cplusplus";
    L "}";
    L "#endif";
    L "" ].

(** Gen_DbcCodeConf, c-main-generator.cpp 520-555 *)
Definition dbccodeconf_text (g : gendesc) : list string :=
  [ n_cominfo g;
    L "#pragma once";
    L "";
    L "#include <stdint.h>";
    L "";
    L "// when USE_SIGFLOAT enabed the sigfloat_t must be defined";
    L "// typedef double sigfloat_t;";
    L "";
    L "// when USE_CANSTRUCT enabled __CoderDbcCanFrame_t__ must be defined";
    L "// #include ""{header_with_can_struct}""";
    L "// typedef {can_struct} __CoderDbcCanFrame_t__;";
    L "";
    L "// if you need to allocate rx and tx messages structs put the allocation macro here";
    L "// #define __DEF_{your_driver_name}__";
    L "";
    L "// defualt @__ext_sig__ help types definition";
    L "";
    L "typedef uint32_t ubitext_t;";
    L "typedef int32_t bitext_t;";
    L "";
    L "// To provide a way to make missing control correctly you";
    L "// have to define macro @GetSystemTick() which has to";
    L "// return kind of tick counter (e.g. 1 ms ticker)";
    L "";
    L "// #define GetSystemTick() __get__tick__()";
    L "";
    L "// To provide a way to calculate hash (crc) for CAN";
    L "// frame's data field you have to define macro @GetFrameHash";
    L "";
    L "// #define GetFrameHash(a,b,c,d,e) __get_hash__(a,b,c,d,e)";
    L "" ].

(** Gen_ConfigHeader, c-main-generator.cpp 435-444 *)
Definition config_text (g : gendesc) : list string :=
  (n_cominfo g :: n_drvinfo g :: config_header_text g)%list.
