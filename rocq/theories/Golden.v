(** A test of the model, not a theorem about it: for the DBC file /repo/test/testdb.dbc the whole
    modelled program, run as in /repo/run-test-gen.sh, writes exactly the files kept in
    /repo/test/gencode. *)

From Coq Require Import ZArith NArith List String Ascii Bool.
From Verif Require Import Base MainGen FsModel App.
Import ListNotations.
Open Scope string_scope.

Definition testdb_dbc : string :=
"VERSION ""1.10""


NS_ : 
	NS_DESC_
	CM_
	BA_DEF_
	BA_
	VAL_
	CAT_DEF_
	CAT_
	FILTER
	BA_DEF_DEF_
	EV_DATA_
	ENVVAR_DATA_
	SGTYPE_
	SGTYPE_VAL_
	BA_DEF_SGTYPE_
	BA_SGTYPE_
	SIG_TYPE_REF_
	VAL_TABLE_
	SIG_GROUP_
	SIG_VALTYPE_
	SIGTYPE_VALTYPE_
	BO_TX_BU_
	BA_DEF_REL_
	BA_REL_
	BA_DEF_DEF_REL_
	BU_SG_REL_
	BU_EV_REL_
	BU_BO_REL_
	SG_MUL_VAL_

BS_:

BU_: EPS ESP BMS BCM
VAL_TABLE_ VtTestSig -2 ""Description for the value '0x7'"" -1 ""Udef"" 6 ""Udef"" 5 ""Udef"" 4 ""Udef"" 3 ""Error"" 2 ""Ok"" 1 ""State one"" 0 ""State 1"" ;


BO_ 273 NO_SIGS_MSG: 8 BCM

BO_ 1911 SIG_TEST_1: 8 EPS
 SG_ U7_TEST_1 : 55|7@0+ (1,-255) [-255|-128] """"  BCM
 SG_ sig_7 : 40|7@1- (1.2,0) [-76.8|75.6] """"  BCM
 SG_ sig8 : 32|8@1- (5,0) [-640|635] """"  BCM
 SG_ sig15_2 : 16|15@1- (1.9,-2500) [-33629.6|28627.7] """"  BCM
 SG_ sig15 : 0|15@1- (3,-1024) [-50176|48125] """"  BCM

BO_ 2684354550 EMPTY_EXT_ID: 8 BCM
 SG_ CS : 13|6@0+ (1,0) [0|255] """"  BCM,ESP,BMS
 SG_ ValTest : 7|2@0+ (1,0) [0|0] ""c""  BCM,ESP,BMS

BO_ 555 UTEST_3: 8 BCM
 SG_ TestValTableID : 32|3@1+ (1,0) [0|7] """"  BMS
 SG_ U32_TEST_1 : 0|32@1+ (1,0) [0|4294967295] """"  BMS

BO_ 333 UTEST_2: 8 BCM
 SG_ U8_TEST_1 : 39|8@0+ (1,0) [0|255] """"  BMS
 SG_ U7_TEST_1 : 47|7@0+ (1,-255) [-255|-128] """"  BMS
 SG_ ValTest : 30|2@0+ (1,0) [0|3] ""c""  ESP,BMS
 SG_ U28_TEST_1 : 0|28@1+ (1,0) [0|4294967295] """"  ESP,BMS

BO_ 864 FLT_TEST_1: 8 BMS
 SG_ INT_TEST_2 : 15|7@0- (5,0) [-320|315] """"  BCM
 SG_ INT_TEST_1 : 53|4@0+ (9,-11) [-11|124] """"  BCM
 SG_ FLT4_TEST_2 : 43|4@0+ (2.01,-5) [-5|25.15] """"  BCM
 SG_ FLT4_TEST_1 : 39|4@0+ (2.01,-0.01) [-0.01|30.14] """"  BCM
 SG_ FLT4_TEST_3 : 47|4@0+ (2,-10.1) [-10.1|19.9] """"  BCM
 SG_ Accel : 24|12@1+ (0.1,-100) [-100|309.5] ""m/s""  BCM
 SG_ ValTable : 1|2@0+ (1,0) [0|3] ""e""  BCM
 SG_ Position : 7|4@0+ (1,0) [0|15] """"  BCM
 SG_ RC : 16|4@1+ (1,0) [0|15] """"  BCM
 SG_ CS : 20|4@1+ (1,0) [0|15] """"  BCM

BO_ 352 EMPTY_0: 8 BCM
 SG_ CS : 38|6@0+ (1,0) [0|63] """"  BMS
 SG_ RC : 47|4@1+ (1,0) [0|15] """"  BMS

BO_TX_BU_ 352 : BMS,ESP,BCM;


CM_ BU_ BMS ""Selector ECU info block
"";
CM_ BU_ BCM ""ESP ECU information"";
CM_ SG_ 2684354550 CS ""<Checksum:kXor8:1> test pattern"";
CM_ SG_ 2684354550 ValTest ""This is test signal for Value Table



"";
CM_ SG_ 333 ValTest ""This is test signal for Value Table



"";
CM_ SG_ 864 Accel ""Test floating point value."";
CM_ SG_ 864 ValTable ""This is just comment.
Next line."";
CM_ SG_ 864 RC ""<RollingCounter>"";
CM_ SG_ 864 CS ""<Checksum:kXor4:1>"";
CM_ SG_ 352 CS ""<Checksum:kXor8:1> test pattern"";
CM_ SG_ 352 RC ""<RollingCounter>"";
BA_DEF_ SG_  ""GenSigSendType"" ENUM  ""Cyclic"",""OnWrite"",""OnWriteWithRepetition"",""OnChange"",""OnChangeWithRepetition"",""IfActive"",""IfActiveWithRepetition"",""NoSigSendType"";
BA_DEF_ BO_  ""GenMsgSendType "" ENUM  ""Cyclic"",""not_used"",""not_used"",""not_used"",""not_used"",""Cyclic"",""not_used"",""IfActive"",""NoMsgSendType"";
BA_DEF_ BU_  ""NmStationAddress"" HEX 0 0;
BA_DEF_  ""BusType"" STRING ;
BA_DEF_  ""DBName"" STRING ;
BA_DEF_ BO_  ""GenMsgCycleTime"" INT 2 50000;
BA_DEF_ BO_  ""GenMsgDelayTime"" INT 1 1000;
BA_DEF_ BO_  ""GenMsgNrOfRepetitions"" INT 1 999999;
BA_DEF_ BO_  ""GenMsgSendType"" ENUM  ""cyclic"",""spontaneous"",""cyclicIfActive"",""spontaneousWithDelay"",""cyclicAndSpontaneous"",""cyclicAndSpontaneousWithDelay"",""spontaneousWithRepetition"",""cyclicIfActiveAndSpontaneousWD"";
BA_DEF_ SG_  ""GenSigInactiveValue"" INT 0 100000;
BA_DEF_ SG_  ""GenSigStartValue"" FLOAT 0 100000000000;
BA_DEF_DEF_  ""GenSigSendType"" ""Cyclic"";
BA_DEF_DEF_  ""GenMsgSendType "" ""NoMsgSendType"";
BA_DEF_DEF_  ""NmStationAddress"" 0;
BA_DEF_DEF_  ""BusType"" """";
BA_DEF_DEF_  ""DBName"" """";
BA_DEF_DEF_  ""GenMsgCycleTime"" 100;
BA_DEF_DEF_  ""GenMsgDelayTime"" 1;
BA_DEF_DEF_  ""GenMsgNrOfRepetitions"" 1;
BA_DEF_DEF_  ""GenMsgSendType"" ""spontaneous"";
BA_DEF_DEF_  ""GenSigInactiveValue"" 0;
BA_DEF_DEF_  ""GenSigStartValue"" 0;
BA_ ""DBName"" ""ceedselector"";
BA_ ""GenMsgSendType"" BO_ 2684354550 0;
BA_ ""GenMsgCycleTime"" BO_ 864 101;
BA_ ""GenMsgSendType"" BO_ 864 0;
BA_ ""GenMsgCycleTime"" BO_ 352 101;
BA_ ""GenMsgSendType"" BO_ 352 0;
BA_ ""GenSigStartValue"" SG_ 1911 sig15_2 1315.78947368421;
BA_ ""GenSigStartValue"" SG_ 1911 sig15 341.333333333333;
BA_ ""GenSigStartValue"" SG_ 864 INT_TEST_2 0.6;
BA_ ""GenSigStartValue"" SG_ 864 INT_TEST_1 0;
BA_ ""GenSigStartValue"" SG_ 864 FLT4_TEST_2 0;
BA_ ""GenSigStartValue"" SG_ 864 FLT4_TEST_1 0;
BA_ ""GenSigStartValue"" SG_ 864 FLT4_TEST_3 5.05;
BA_ ""GenSigStartValue"" SG_ 864 Accel 1000;
VAL_ 2684354550 ValTest 3 ""Unsupported"" 2 ""Fail"" 1 ""OK"" 0 ""Undefined"" ;
VAL_ 555 TestValTableID -2 ""Description for the value '0x7'"" -1 ""Udef"" 6 ""Udef"" 5 ""Udef"" 4 ""Udef"" 3 ""Error"" 2 ""Ok"" 1 ""State one"" 0 ""State 1"" ;
VAL_ 333 ValTest 3 ""Unsupported"" 2 ""Fail"" 1 ""OK"" 0 ""Undefined"" ;
VAL_ 864 ValTable 3 ""Unsupported"" 2 ""Fail"" 1 ""OK"" 0 ""Undefined"" ;

".

Definition golden_0 : string :=
"// Generator version : v3.1
// DBC filename      : testdb.dbc
#include ""bcm_testdb-binutil.h""

// DBC file version
#if (VER_TESTDB_MAJ != (1U)) || (VER_TESTDB_MIN != (10U))
#error The BCM_TESTDB binutil source file has inconsistency with core dbc lib!
#endif

#ifdef __DEF_BCM_TESTDB__

bcm_testdb_rx_t bcm_testdb_rx;

bcm_testdb_tx_t bcm_testdb_tx;

#endif // __DEF_BCM_TESTDB__

uint32_t bcm_testdb_Receive(bcm_testdb_rx_t* _m, const uint8_t* _d, uint32_t _id, uint8_t dlc_)
{
 uint32_t recid = 0;
 if (_id == 0x360U) {
  recid = Unpack_FLT_TEST_1_testdb(&(_m->FLT_TEST_1), _d, dlc_);
 } else {
  if (_id == 0x777U) {
   recid = Unpack_SIG_TEST_1_testdb(&(_m->SIG_TEST_1), _d, dlc_);
  } else if (_id == 0x1FFFFFF6U) {
   recid = Unpack_EMPTY_EXT_ID_testdb(&(_m->EMPTY_EXT_ID), _d, dlc_);
  }
 }

 return recid;
}

".

Definition golden_1 : string :=
"// Generator version : v3.1
// DBC filename      : testdb.dbc
#pragma once

#ifdef __cplusplus
extern ""C"" {
#endif

#include ""dbccodeconf.h""

#include ""testdb.h""

typedef struct
{
  FLT_TEST_1_t FLT_TEST_1;
  SIG_TEST_1_t SIG_TEST_1;
  EMPTY_EXT_ID_t EMPTY_EXT_ID;
} bcm_testdb_rx_t;

typedef struct
{
  UTEST_2_t UTEST_2;
  EMPTY_0_t EMPTY_0;
  UTEST_3_t UTEST_3;
  EMPTY_EXT_ID_t EMPTY_EXT_ID;
} bcm_testdb_tx_t;

uint32_t bcm_testdb_Receive(bcm_testdb_rx_t* m, const uint8_t* d, uint32_t msgid, uint8_t dlc);

#ifdef __DEF_BCM_TESTDB__

extern bcm_testdb_rx_t bcm_testdb_rx;

extern bcm_testdb_tx_t bcm_testdb_tx;

#endif // __DEF_BCM_TESTDB__

#ifdef __cplusplus
}
#endif
".

Definition golden_2 : string :=
"// Generator version : v3.1
// DBC filename      : testdb.dbc
#include ""bms_testdb-binutil.h""

// DBC file version
#if (VER_TESTDB_MAJ != (1U)) || (VER_TESTDB_MIN != (10U))
#error The BMS_TESTDB binutil source file has inconsistency with core dbc lib!
#endif

#ifdef __DEF_BMS_TESTDB__

bms_testdb_rx_t bms_testdb_rx;

bms_testdb_tx_t bms_testdb_tx;

#endif // __DEF_BMS_TESTDB__

uint32_t bms_testdb_Receive(bms_testdb_rx_t* _m, const uint8_t* _d, uint32_t _id, uint8_t dlc_)
{
 uint32_t recid = 0;
 if ((_id >= 0x14DU) && (_id < 0x22BU)) {
  if (_id == 0x14DU) {
   recid = Unpack_UTEST_2_testdb(&(_m->UTEST_2), _d, dlc_);
  } else if (_id == 0x160U) {
   recid = Unpack_EMPTY_0_testdb(&(_m->EMPTY_0), _d, dlc_);
  }
 } else {
  if (_id == 0x22BU) {
   recid = Unpack_UTEST_3_testdb(&(_m->UTEST_3), _d, dlc_);
  } else if (_id == 0x1FFFFFF6U) {
   recid = Unpack_EMPTY_EXT_ID_testdb(&(_m->EMPTY_EXT_ID), _d, dlc_);
  }
 }

 return recid;
}

".

Definition golden_3 : string :=
"// Generator version : v3.1
// DBC filename      : testdb.dbc
#pragma once

#ifdef __cplusplus
extern ""C"" {
#endif

#include ""dbccodeconf.h""

#include ""testdb.h""

typedef struct
{
  UTEST_2_t UTEST_2;
  EMPTY_0_t EMPTY_0;
  UTEST_3_t UTEST_3;
  EMPTY_EXT_ID_t EMPTY_EXT_ID;
} bms_testdb_rx_t;

typedef struct
{
  EMPTY_0_t EMPTY_0;
  FLT_TEST_1_t FLT_TEST_1;
} bms_testdb_tx_t;

uint32_t bms_testdb_Receive(bms_testdb_rx_t* m, const uint8_t* d, uint32_t msgid, uint8_t dlc);

#ifdef __DEF_BMS_TESTDB__

extern bms_testdb_rx_t bms_testdb_rx;

extern bms_testdb_tx_t bms_testdb_tx;

#endif // __DEF_BMS_TESTDB__

#ifdef __cplusplus
}
#endif
".

Definition golden_4 : string :=
"// Generator version : v3.1
// DBC filename      : testdb.dbc
#include ""eps_testdb-binutil.h""

// DBC file version
#if (VER_TESTDB_MAJ != (1U)) || (VER_TESTDB_MIN != (10U))
#error The EPS_TESTDB binutil source file has inconsistency with core dbc lib!
#endif

#ifdef __DEF_EPS_TESTDB__

eps_testdb_tx_t eps_testdb_tx;

#endif // __DEF_EPS_TESTDB__

".

Definition golden_5 : string :=
"// Generator version : v3.1
// DBC filename      : testdb.dbc
#pragma once

#ifdef __cplusplus
extern ""C"" {
#endif

#include ""dbccodeconf.h""

#include ""testdb.h""

// There is no any RX mapped massage.

typedef struct
{
  SIG_TEST_1_t SIG_TEST_1;
} eps_testdb_tx_t;

#ifdef __DEF_EPS_TESTDB__

extern eps_testdb_tx_t eps_testdb_tx;

#endif // __DEF_EPS_TESTDB__

#ifdef __cplusplus
}
#endif
".

Definition golden_6 : string :=
"// Generator version : v3.1
// DBC filename      : testdb.dbc
#include ""esp_testdb-binutil.h""

// DBC file version
#if (VER_TESTDB_MAJ != (1U)) || (VER_TESTDB_MIN != (10U))
#error The ESP_TESTDB binutil source file has inconsistency with core dbc lib!
#endif

#ifdef __DEF_ESP_TESTDB__

esp_testdb_rx_t esp_testdb_rx;

esp_testdb_tx_t esp_testdb_tx;

#endif // __DEF_ESP_TESTDB__

uint32_t esp_testdb_Receive(esp_testdb_rx_t* _m, const uint8_t* _d, uint32_t _id, uint8_t dlc_)
{
 uint32_t recid = 0;
 if (_id == 0x14DU) {
  recid = Unpack_UTEST_2_testdb(&(_m->UTEST_2), _d, dlc_);
 } else if (_id == 0x1FFFFFF6U) {
  recid = Unpack_EMPTY_EXT_ID_testdb(&(_m->EMPTY_EXT_ID), _d, dlc_);
 }

 return recid;
}

".

Definition golden_7 : string :=
"// Generator version : v3.1
// DBC filename      : testdb.dbc
#pragma once

#ifdef __cplusplus
extern ""C"" {
#endif

#include ""dbccodeconf.h""

#include ""testdb.h""

typedef struct
{
  UTEST_2_t UTEST_2;
  EMPTY_EXT_ID_t EMPTY_EXT_ID;
} esp_testdb_rx_t;

typedef struct
{
  EMPTY_0_t EMPTY_0;
} esp_testdb_tx_t;

uint32_t esp_testdb_Receive(esp_testdb_rx_t* m, const uint8_t* d, uint32_t msgid, uint8_t dlc);

#ifdef __DEF_ESP_TESTDB__

extern esp_testdb_rx_t esp_testdb_rx;

extern esp_testdb_tx_t esp_testdb_tx;

#endif // __DEF_ESP_TESTDB__

#ifdef __cplusplus
}
#endif
".

Definition golden_8 : string :=
"// Generator version : v3.1
#pragma once

#include <stdint.h>

// when USE_SIGFLOAT enabed the sigfloat_t must be defined
// typedef double sigfloat_t;

// when USE_CANSTRUCT enabled __CoderDbcCanFrame_t__ must be defined
// #include ""{header_with_can_struct}""
// typedef {can_struct} __CoderDbcCanFrame_t__;

// if you need to allocate rx and tx messages structs put the allocation macro here
// #define __DEF_{your_driver_name}__

// defualt @__ext_sig__ help types definition

typedef uint32_t ubitext_t;
typedef int32_t bitext_t;

// To provide a way to make missing control correctly you
// have to define macro @GetSystemTick() which has to
// return kind of tick counter (e.g. 1 ms ticker)

// #define GetSystemTick() __get__tick__()

// To provide a way to calculate hash (crc) for CAN
// frame's data field you have to define macro @GetFrameHash

// #define GetFrameHash(a,b,c,d,e) __get_hash__(a,b,c,d,e)

".

Definition golden_9 : string :=
"// Generator version : v3.1
// DBC filename      : testdb.dbc
#pragma once

/* include common dbccode configurations */
#include ""dbccodeconf.h""


/* ------------------------------------------------------------------------- *
  This define enables using CAN message structs with bit-fielded signals
  layout.

  Note(!): bit-feild was not tested properly. */

/* #define TESTDB_USE_BITS_SIGNAL */


/* ------------------------------------------------------------------------- *
  This macro enables using CAN message descriptive struct packing functions
  (by default signature of pack function intakes a few simple typed params
  for loading data, len, etc). To compile you need to define the struct
  __CoderDbcCanFrame_t__ which must have fields:

    u32 MsgId (CAN Frame message ID)
    u8 DLC (CAN Frame payload length field)
    u8 Data[8] (CAN Frame payload data)
    u8 IDE (CAN Frame Extended (1) / Standard (0) ID type)

  This struct definition have to be placed (or be included) in dbccodeconf.h */

/* #define TESTDB_USE_CANSTRUCT */


/* ------------------------------------------------------------------------- *
  All the signals which have values of factor != 1 or offset != 0
  will be named in message struct with posfix '_ro'. Pack to payload
  operations will be made on this signal value as well as unpack from payload.

  USE_SIGFLOAT macro makes some difference:

  1. All the '_ro' fields will have a pair field with '_phys' postfix.
  If only offset != 0 is true then the type of '_phys' signal is the same
  as '_ro' signal. In other case the type will be @sigfloat_t which
  have to be defined in user dbccodeconf.h

  2. In pack function '_ro' signal will be rewritten by '_phys' signal, which
  requires from user to use ONLY '_phys' signal for packing frame

  3. In unpack function '_phys' signal will be written by '_ro' signal.
  User have to use '_phys' signal to read physical value. */

/* #define TESTDB_USE_SIGFLOAT */


/* ------------------------------------------------------------------------- *
  Note(!) that the ""canmonitorutil.h"" must be accessed in include path:

  This macro adds:

  - monitor field @mon1 to message struct

  - capture system tick in unpack function and save value to mon1 field
  to provide to user better missing frame detection code. For this case
  user must provide function declared in canmonitorutil.h - GetSysTick()
  which may return 1ms uptime.

  - calling function FMon_***  (from 'fmon' driver) inside unpack function
  which is empty by default and have to be filled by user if
  tests for DLC, rolling, checksum are necessary */

/* #define TESTDB_USE_DIAG_MONITORS */


/* ------------------------------------------------------------------------- *
  When monitor using is enabled (TESTDB_USE_DIAG_MONITORS) and define below
  uncommented, additional signal will be added to message struct. ***_expt:
  expected rolling counter, to perform monitoring rolling counter sequence
  automatically (result may be tested in dedicated Fmon_*** function) */

/* #define TESTDB_AUTO_ROLL */


/* ------------------------------------------------------------------------- *
  When monitor using is enabled (TESTDB_USE_DIAG_MONITORS) and define below
  uncommented, frame checksum signal may be handled automatically.

  The signal which may be marked as checksum signal must have substring
  with next format:
    <Checksum:XOR8:3>

  where:

  - ""Checksum"": constant marker word

  - ""XOR8"": type of method, this text will be passed to GetFrameHash
  (canmonitorutil.h) function as is, the best use case is to define 'enum
  DbcCanCrcMethods' in canmonitorutil.h file with all possible
  checksum algorithms (e.g. XOR8, XOR4 etc)

  - ""3"": optional value that will be passed to GetFrameHash as integer value

  Function GetFrameHash have to be implemented by user

  In pack function checksum signal will be calculated automatically
  and loaded to payload

  In unpack function checksum signal is checked with calculated.
  (result may be tested in dedicated Fmon_*** function). */

/* #define TESTDB_AUTO_CSM */


/* ------------------------------------------------------------------------- *
  FMon handling model can be build in two ways: 

  1 - Default. In this case when specific frame unpack is called the 
  specific FMon_{Frame name}_{driver name} functoin will be called.
  User's code scope has to define each of these functions. Each function is
  responsible for the error handling of one frame

  2 - MONO. In this case there is only one function to perform any frame 
  monitoring. This function has to be implemented in the user's code scope.
  This function is named as FMon_MONO_{driver name}. It takes frame id
  which can be used for selection of the logic for a frame monitoring.
  This mode costs a bit more in runtime but when you often edit you DBC and you 
  have more than one project it could be more maintanable (there is
  no necessity to replace source code)

  For using MONO way uncomment line below */
/* #define TESTDB_USE_MONO_FMON */
".

Definition golden_10 : string :=
"// Generator version : v3.1
#pragma once

#include <stdint.h>

#ifdef __cplusplus
extern ""C"" {
#endif

// declare here all availible checksum algorithms
typedef enum
{
  // XOR8 = 0,
  // XOR4 = 1,
  // etc

  // it is up to user to have or to skip final enum value - @CRC_ALG_COUNT
  CRC_ALG_COUNT
} DbcCanCrcMethods;

typedef struct
{
  // @last_cycle keeps tick-value when last frame was received
  uint32_t last_cycle;

  // @timeout_cycle keeps maximum timeout for frame, user responsibility
  // to init this field and use it in missing frame monitoring function
  uint32_t timeout_cycle;

  // @frame_cnt keeps count of all the received frames
  uint32_t frame_cnt;

  // setting up @roll_error bit indicates roll counting fail.
  // Bit is not clearing automatically!
  uint32_t roll_error : 1;

  // setting up @checksum_error bit indicates checksum checking failure.
  // Bit is not clearing automatically!
  uint32_t csm_error : 1;

  // setting up @cycle_error bit indicates that time was overrunned.
  // Bit is not clearing automatically!
  uint32_t cycle_error : 1;

  // setting up @dlc_error bit indicates that the actual length of
  // CAN frame is less then defined by CAN matrix!
  uint32_t dlc_error : 1;

} FrameMonitor_t;

#ifdef __cplusplus
}
#endif

".

Definition golden_11 : string :=
"// Generator version : v3.1
// DBC filename      : testdb.dbc
#pragma once

#ifdef __cplusplus
extern ""C"" {
#endif

// DBC file version
#define VER_TESTDB_MAJ_FMON (1U)
#define VER_TESTDB_MIN_FMON (10U)

#include ""testdb-config.h""

#ifdef TESTDB_USE_DIAG_MONITORS

#include ""canmonitorutil.h""
/*
This file contains the prototypes of all the functions that will be called
from each Unpack_*name* function to detect DBC related errors
It is the user responsibility to defined these functions in the
separated .c file. If it won't be done the linkage error will happen
*/

#ifdef TESTDB_USE_MONO_FMON

void _FMon_MONO_testdb(FrameMonitor_t* _mon, uint32_t msgid);

#define FMon_NO_SIGS_MSG_testdb(x, y) _FMon_MONO_testdb((x), (y))
#define FMon_UTEST_2_testdb(x, y) _FMon_MONO_testdb((x), (y))
#define FMon_EMPTY_0_testdb(x, y) _FMon_MONO_testdb((x), (y))
#define FMon_UTEST_3_testdb(x, y) _FMon_MONO_testdb((x), (y))
#define FMon_FLT_TEST_1_testdb(x, y) _FMon_MONO_testdb((x), (y))
#define FMon_SIG_TEST_1_testdb(x, y) _FMon_MONO_testdb((x), (y))
#define FMon_EMPTY_EXT_ID_testdb(x, y) _FMon_MONO_testdb((x), (y))

#else

void _FMon_NO_SIGS_MSG_testdb(FrameMonitor_t* _mon, uint32_t msgid);
void _FMon_UTEST_2_testdb(FrameMonitor_t* _mon, uint32_t msgid);
void _FMon_EMPTY_0_testdb(FrameMonitor_t* _mon, uint32_t msgid);
void _FMon_UTEST_3_testdb(FrameMonitor_t* _mon, uint32_t msgid);
void _FMon_FLT_TEST_1_testdb(FrameMonitor_t* _mon, uint32_t msgid);
void _FMon_SIG_TEST_1_testdb(FrameMonitor_t* _mon, uint32_t msgid);
void _FMon_EMPTY_EXT_ID_testdb(FrameMonitor_t* _mon, uint32_t msgid);

#define FMon_NO_SIGS_MSG_testdb(x, y) _FMon_NO_SIGS_MSG_testdb((x), (y))
#define FMon_UTEST_2_testdb(x, y) _FMon_UTEST_2_testdb((x), (y))
#define FMon_EMPTY_0_testdb(x, y) _FMon_EMPTY_0_testdb((x), (y))
#define FMon_UTEST_3_testdb(x, y) _FMon_UTEST_3_testdb((x), (y))
#define FMon_FLT_TEST_1_testdb(x, y) _FMon_FLT_TEST_1_testdb((x), (y))
#define FMon_SIG_TEST_1_testdb(x, y) _FMon_SIG_TEST_1_testdb((x), (y))
#define FMon_EMPTY_EXT_ID_testdb(x, y) _FMon_EMPTY_EXT_ID_testdb((x), (y))

#endif

#endif // TESTDB_USE_DIAG_MONITORS

#ifdef __cplusplus
}
#endif
".

Definition golden_12 : string :=
"// Generator version : v3.1
// DBC filename      : testdb.dbc
#include ""testdb.h""


// DBC file version
#if (VER_TESTDB_MAJ != (1U)) || (VER_TESTDB_MIN != (10U))
#error The TESTDB dbc source files have different versions
#endif

#ifdef TESTDB_USE_DIAG_MONITORS
// Function prototypes to be called each time CAN frame is unpacked
// FMon function may detect RC, CRC or DLC violation
#include ""testdb-fmon.h""

#endif // TESTDB_USE_DIAG_MONITORS

// This macro guard for the case when you need to enable
// using diag monitors but there is no necessity in proper
// SysTick provider. For providing one you need define macro
// before this line - in dbccodeconf.h

#ifndef GetSystemTick
#define GetSystemTick() (0u)
#endif

// This macro guard is for the case when you want to build
// app with enabled optoin auto CSM, but don't yet have
// proper getframehash implementation

#ifndef GetFrameHash
#define GetFrameHash(a,b,c,d,e) (0u)
#endif

// This function performs extension of sign for the signals
// whose bit width value is not aligned to one of power of 2 or less than 8.
// The types 'bitext_t' and 'ubitext_t' define the biggest bit width which
// can be correctly handled. You need to select type which can contain
// n+1 bits where n is the largest signed signal width. For example if
// the most wide signed signal has a width of 31 bits you need to set
// bitext_t as int32_t and ubitext_t as uint32_t
// Defined these typedefs in @dbccodeconf.h or locally in 'dbcdrvname'-config.h
static bitext_t __ext_sig__(ubitext_t val, uint8_t bits)
{
  ubitext_t const m = (ubitext_t) (1u << (bits - 1u));
  return ((val ^ m) - m);
}

uint32_t Unpack_UTEST_2_testdb(UTEST_2_t* _m, const uint8_t* _d, uint8_t dlc_)
{
  (void)dlc_;
  _m->U28_TEST_1 = (uint32_t) ( ((_d[3] & (0x0FU)) << 24U) | ((_d[2] & (0xFFU)) << 16U) | ((_d[1] & (0xFFU)) << 8U) | (_d[0] & (0xFFU)) );
  _m->ValTest = (uint8_t) ( ((_d[3] >> 5U) & (0x03U)) );
  _m->U8_TEST_1 = (uint8_t) ( (_d[4] & (0xFFU)) );
  _m->U7_TEST_1_ro = (uint8_t) ( ((_d[5] >> 1U) & (0x7FU)) );
#ifdef TESTDB_USE_SIGFLOAT
  _m->U7_TEST_1_phys = (int16_t) TESTDB_U7_TEST_1_ro_fromS(_m->U7_TEST_1_ro);
#endif // TESTDB_USE_SIGFLOAT

#ifdef TESTDB_USE_DIAG_MONITORS
  _m->mon1.dlc_error = (dlc_ < UTEST_2_DLC);
  _m->mon1.last_cycle = GetSystemTick();
  _m->mon1.frame_cnt++;

  FMon_UTEST_2_testdb(&_m->mon1, UTEST_2_CANID);
#endif // TESTDB_USE_DIAG_MONITORS

  return UTEST_2_CANID;
}

#ifdef TESTDB_USE_CANSTRUCT

uint32_t Pack_UTEST_2_testdb(UTEST_2_t* _m, __CoderDbcCanFrame_t__* cframe)
{
  uint8_t i; for (i = 0u; i < TESTDB_VALIDATE_DLC(UTEST_2_DLC); cframe->Data[i++] = TESTDB_INITIAL_BYTE_VALUE);

#ifdef TESTDB_USE_SIGFLOAT
  _m->U7_TEST_1_ro = (uint8_t) TESTDB_U7_TEST_1_ro_toS(_m->U7_TEST_1_phys);
#endif // TESTDB_USE_SIGFLOAT

  cframe->Data[0] |= (uint8_t) ( (_m->U28_TEST_1 & (0xFFU)) );
  cframe->Data[1] |= (uint8_t) ( ((_m->U28_TEST_1 >> 8U) & (0xFFU)) );
  cframe->Data[2] |= (uint8_t) ( ((_m->U28_TEST_1 >> 16U) & (0xFFU)) );
  cframe->Data[3] |= (uint8_t) ( ((_m->U28_TEST_1 >> 24U) & (0x0FU)) | ((_m->ValTest & (0x03U)) << 5U) );
  cframe->Data[4] |= (uint8_t) ( (_m->U8_TEST_1 & (0xFFU)) );
  cframe->Data[5] |= (uint8_t) ( ((_m->U7_TEST_1_ro & (0x7FU)) << 1U) );

  cframe->MsgId = (uint32_t) UTEST_2_CANID;
  cframe->DLC = (uint8_t) UTEST_2_DLC;
  cframe->IDE = (uint8_t) UTEST_2_IDE;
  return UTEST_2_CANID;
}

#else

uint32_t Pack_UTEST_2_testdb(UTEST_2_t* _m, uint8_t* _d, uint8_t* _len, uint8_t* _ide)
{
  uint8_t i; for (i = 0u; i < TESTDB_VALIDATE_DLC(UTEST_2_DLC); _d[i++] = TESTDB_INITIAL_BYTE_VALUE);

#ifdef TESTDB_USE_SIGFLOAT
  _m->U7_TEST_1_ro = (uint8_t) TESTDB_U7_TEST_1_ro_toS(_m->U7_TEST_1_phys);
#endif // TESTDB_USE_SIGFLOAT

  _d[0] |= (uint8_t) ( (_m->U28_TEST_1 & (0xFFU)) );
  _d[1] |= (uint8_t) ( ((_m->U28_TEST_1 >> 8U) & (0xFFU)) );
  _d[2] |= (uint8_t) ( ((_m->U28_TEST_1 >> 16U) & (0xFFU)) );
  _d[3] |= (uint8_t) ( ((_m->U28_TEST_1 >> 24U) & (0x0FU)) | ((_m->ValTest & (0x03U)) << 5U) );
  _d[4] |= (uint8_t) ( (_m->U8_TEST_1 & (0xFFU)) );
  _d[5] |= (uint8_t) ( ((_m->U7_TEST_1_ro & (0x7FU)) << 1U) );

  *_len = (uint8_t) UTEST_2_DLC;
  *_ide = (uint8_t) UTEST_2_IDE;
  return UTEST_2_CANID;
}

#endif // TESTDB_USE_CANSTRUCT

uint32_t Unpack_EMPTY_0_testdb(EMPTY_0_t* _m, const uint8_t* _d, uint8_t dlc_)
{
  (void)dlc_;
  _m->CS = (uint8_t) ( ((_d[4] >> 1U) & (0x3FU)) );
  _m->RC = (uint8_t) ( ((_d[6] & (0x07U)) << 1U) | ((_d[5] >> 7U) & (0x01U)) );

#ifdef TESTDB_USE_DIAG_MONITORS
  _m->mon1.dlc_error = (dlc_ < EMPTY_0_DLC);
  _m->mon1.last_cycle = GetSystemTick();
  _m->mon1.frame_cnt++;

#ifdef TESTDB_AUTO_ROLL
  _m->mon1.roll_error = (_m->RC != _m->RC_expt);
  _m->RC_expt = (_m->RC + 1) & (0x0FU);
#endif // TESTDB_AUTO_ROLL

#ifdef TESTDB_AUTO_CSM
  _m->mon1.csm_error = (((uint8_t)GetFrameHash(_d, EMPTY_0_DLC, EMPTY_0_CANID, kXor8, 1)) != (_m->CS));
#endif // TESTDB_AUTO_CSM

  FMon_EMPTY_0_testdb(&_m->mon1, EMPTY_0_CANID);
#endif // TESTDB_USE_DIAG_MONITORS

  return EMPTY_0_CANID;
}

#ifdef TESTDB_USE_CANSTRUCT

uint32_t Pack_EMPTY_0_testdb(EMPTY_0_t* _m, __CoderDbcCanFrame_t__* cframe)
{
  uint8_t i; for (i = 0u; i < TESTDB_VALIDATE_DLC(EMPTY_0_DLC); cframe->Data[i++] = TESTDB_INITIAL_BYTE_VALUE);

#ifdef TESTDB_AUTO_ROLL
  _m->RC = (_m->RC + 1) & (0x0FU);
#endif // TESTDB_AUTO_ROLL

#ifdef TESTDB_AUTO_CSM
  _m->CS = (uint8_t) 0;
#endif // TESTDB_AUTO_CSM

  cframe->Data[4] |= (uint8_t) ( ((_m->CS & (0x3FU)) << 1U) );
  cframe->Data[5] |= (uint8_t) ( ((_m->RC & (0x01U)) << 7U) );
  cframe->Data[6] |= (uint8_t) ( ((_m->RC >> 1U) & (0x07U)) );

#ifdef TESTDB_AUTO_CSM
  _m->CS = ((uint8_t)GetFrameHash(cframe->Data, EMPTY_0_DLC, EMPTY_0_CANID, kXor8, 1));
  cframe->Data[4] |= (uint8_t) ( ((_m->CS & (0x3FU)) << 1U) );
#endif // TESTDB_AUTO_CSM

  cframe->MsgId = (uint32_t) EMPTY_0_CANID;
  cframe->DLC = (uint8_t) EMPTY_0_DLC;
  cframe->IDE = (uint8_t) EMPTY_0_IDE;
  return EMPTY_0_CANID;
}

#else

uint32_t Pack_EMPTY_0_testdb(EMPTY_0_t* _m, uint8_t* _d, uint8_t* _len, uint8_t* _ide)
{
  uint8_t i; for (i = 0u; i < TESTDB_VALIDATE_DLC(EMPTY_0_DLC); _d[i++] = TESTDB_INITIAL_BYTE_VALUE);

#ifdef TESTDB_AUTO_ROLL
  _m->RC = (_m->RC + 1) & (0x0FU);
#endif // TESTDB_AUTO_ROLL

#ifdef TESTDB_AUTO_CSM
  _m->CS = (uint8_t) 0;
#endif // TESTDB_AUTO_CSM

  _d[4] |= (uint8_t) ( ((_m->CS & (0x3FU)) << 1U) );
  _d[5] |= (uint8_t) ( ((_m->RC & (0x01U)) << 7U) );
  _d[6] |= (uint8_t) ( ((_m->RC >> 1U) & (0x07U)) );

#ifdef TESTDB_AUTO_CSM
  _m->CS = ((uint8_t)GetFrameHash(_d, EMPTY_0_DLC, EMPTY_0_CANID, kXor8, 1));
  _d[4] |= (uint8_t) ( ((_m->CS & (0x3FU)) << 1U) );
#endif // TESTDB_AUTO_CSM

  *_len = (uint8_t) EMPTY_0_DLC;
  *_ide = (uint8_t) EMPTY_0_IDE;
  return EMPTY_0_CANID;
}

#endif // TESTDB_USE_CANSTRUCT

uint32_t Unpack_UTEST_3_testdb(UTEST_3_t* _m, const uint8_t* _d, uint8_t dlc_)
{
  (void)dlc_;
  _m->U32_TEST_1 = (uint32_t) ( ((_d[3] & (0xFFU)) << 24U) | ((_d[2] & (0xFFU)) << 16U) | ((_d[1] & (0xFFU)) << 8U) | (_d[0] & (0xFFU)) );
  _m->TestValTableID = (uint8_t) ( (_d[4] & (0x07U)) );

#ifdef TESTDB_USE_DIAG_MONITORS
  _m->mon1.dlc_error = (dlc_ < UTEST_3_DLC);
  _m->mon1.last_cycle = GetSystemTick();
  _m->mon1.frame_cnt++;

  FMon_UTEST_3_testdb(&_m->mon1, UTEST_3_CANID);
#endif // TESTDB_USE_DIAG_MONITORS

  return UTEST_3_CANID;
}

#ifdef TESTDB_USE_CANSTRUCT

uint32_t Pack_UTEST_3_testdb(UTEST_3_t* _m, __CoderDbcCanFrame_t__* cframe)
{
  uint8_t i; for (i = 0u; i < TESTDB_VALIDATE_DLC(UTEST_3_DLC); cframe->Data[i++] = TESTDB_INITIAL_BYTE_VALUE);

  cframe->Data[0] |= (uint8_t) ( (_m->U32_TEST_1 & (0xFFU)) );
  cframe->Data[1] |= (uint8_t) ( ((_m->U32_TEST_1 >> 8U) & (0xFFU)) );
  cframe->Data[2] |= (uint8_t) ( ((_m->U32_TEST_1 >> 16U) & (0xFFU)) );
  cframe->Data[3] |= (uint8_t) ( ((_m->U32_TEST_1 >> 24U) & (0xFFU)) );
  cframe->Data[4] |= (uint8_t) ( (_m->TestValTableID & (0x07U)) );

  cframe->MsgId = (uint32_t) UTEST_3_CANID;
  cframe->DLC = (uint8_t) UTEST_3_DLC;
  cframe->IDE = (uint8_t) UTEST_3_IDE;
  return UTEST_3_CANID;
}

#else

uint32_t Pack_UTEST_3_testdb(UTEST_3_t* _m, uint8_t* _d, uint8_t* _len, uint8_t* _ide)
{
  uint8_t i; for (i = 0u; i < TESTDB_VALIDATE_DLC(UTEST_3_DLC); _d[i++] = TESTDB_INITIAL_BYTE_VALUE);

  _d[0] |= (uint8_t) ( (_m->U32_TEST_1 & (0xFFU)) );
  _d[1] |= (uint8_t) ( ((_m->U32_TEST_1 >> 8U) & (0xFFU)) );
  _d[2] |= (uint8_t) ( ((_m->U32_TEST_1 >> 16U) & (0xFFU)) );
  _d[3] |= (uint8_t) ( ((_m->U32_TEST_1 >> 24U) & (0xFFU)) );
  _d[4] |= (uint8_t) ( (_m->TestValTableID & (0x07U)) );

  *_len = (uint8_t) UTEST_3_DLC;
  *_ide = (uint8_t) UTEST_3_IDE;
  return UTEST_3_CANID;
}

#endif // TESTDB_USE_CANSTRUCT

uint32_t Unpack_FLT_TEST_1_testdb(FLT_TEST_1_t* _m, const uint8_t* _d, uint8_t dlc_)
{
  (void)dlc_;
  _m->ValTable = (uint8_t) ( (_d[0] & (0x03U)) );
  _m->Position = (uint8_t) ( ((_d[0] >> 4U) & (0x0FU)) );
  _m->INT_TEST_2_ro = (int8_t) __ext_sig__(( ((_d[1] >> 1U) & (0x7FU)) ), 7);
#ifdef TESTDB_USE_SIGFLOAT
  _m->INT_TEST_2_phys = (int16_t) TESTDB_INT_TEST_2_ro_fromS(_m->INT_TEST_2_ro);
#endif // TESTDB_USE_SIGFLOAT

  _m->RC = (uint8_t) ( (_d[2] & (0x0FU)) );
  _m->CS = (uint8_t) ( ((_d[2] >> 4U) & (0x0FU)) );
  _m->Accel_ro = (uint16_t) ( ((_d[4] & (0x0FU)) << 8U) | (_d[3] & (0xFFU)) );
#ifdef TESTDB_USE_SIGFLOAT
  _m->Accel_phys = (sigfloat_t)(TESTDB_Accel_ro_fromS(_m->Accel_ro));
#endif // TESTDB_USE_SIGFLOAT

  _m->FLT4_TEST_1_ro = (uint8_t) ( ((_d[4] >> 4U) & (0x0FU)) );
#ifdef TESTDB_USE_SIGFLOAT
  _m->FLT4_TEST_1_phys = (sigfloat_t)(TESTDB_FLT4_TEST_1_ro_fromS(_m->FLT4_TEST_1_ro));
#endif // TESTDB_USE_SIGFLOAT

  _m->FLT4_TEST_2_ro = (uint8_t) ( (_d[5] & (0x0FU)) );
#ifdef TESTDB_USE_SIGFLOAT
  _m->FLT4_TEST_2_phys = (sigfloat_t)(TESTDB_FLT4_TEST_2_ro_fromS(_m->FLT4_TEST_2_ro));
#endif // TESTDB_USE_SIGFLOAT

  _m->FLT4_TEST_3_ro = (uint8_t) ( ((_d[5] >> 4U) & (0x0FU)) );
#ifdef TESTDB_USE_SIGFLOAT
  _m->FLT4_TEST_3_phys = (sigfloat_t)(TESTDB_FLT4_TEST_3_ro_fromS(_m->FLT4_TEST_3_ro));
#endif // TESTDB_USE_SIGFLOAT

  _m->INT_TEST_1_ro = (uint8_t) ( ((_d[6] >> 2U) & (0x0FU)) );
#ifdef TESTDB_USE_SIGFLOAT
  _m->INT_TEST_1_phys = (int8_t) TESTDB_INT_TEST_1_ro_fromS(_m->INT_TEST_1_ro);
#endif // TESTDB_USE_SIGFLOAT

#ifdef TESTDB_USE_DIAG_MONITORS
  _m->mon1.dlc_error = (dlc_ < FLT_TEST_1_DLC);
  _m->mon1.last_cycle = GetSystemTick();
  _m->mon1.frame_cnt++;

#ifdef TESTDB_AUTO_ROLL
  _m->mon1.roll_error = (_m->RC != _m->RC_expt);
  _m->RC_expt = (_m->RC + 1) & (0x0FU);
#endif // TESTDB_AUTO_ROLL

#ifdef TESTDB_AUTO_CSM
  _m->mon1.csm_error = (((uint8_t)GetFrameHash(_d, FLT_TEST_1_DLC, FLT_TEST_1_CANID, kXor4, 1)) != (_m->CS));
#endif // TESTDB_AUTO_CSM

  FMon_FLT_TEST_1_testdb(&_m->mon1, FLT_TEST_1_CANID);
#endif // TESTDB_USE_DIAG_MONITORS

  return FLT_TEST_1_CANID;
}

#ifdef TESTDB_USE_CANSTRUCT

uint32_t Pack_FLT_TEST_1_testdb(FLT_TEST_1_t* _m, __CoderDbcCanFrame_t__* cframe)
{
  uint8_t i; for (i = 0u; i < TESTDB_VALIDATE_DLC(FLT_TEST_1_DLC); cframe->Data[i++] = TESTDB_INITIAL_BYTE_VALUE);

#ifdef TESTDB_AUTO_ROLL
  _m->RC = (_m->RC + 1) & (0x0FU);
#endif // TESTDB_AUTO_ROLL

#ifdef TESTDB_AUTO_CSM
  _m->CS = (uint8_t) 0;
#endif // TESTDB_AUTO_CSM

#ifdef TESTDB_USE_SIGFLOAT
  _m->INT_TEST_2_ro = (int8_t) TESTDB_INT_TEST_2_ro_toS(_m->INT_TEST_2_phys);
  _m->Accel_ro = (uint16_t) TESTDB_Accel_ro_toS(_m->Accel_phys);
  _m->FLT4_TEST_1_ro = (uint8_t) TESTDB_FLT4_TEST_1_ro_toS(_m->FLT4_TEST_1_phys);
  _m->FLT4_TEST_2_ro = (uint8_t) TESTDB_FLT4_TEST_2_ro_toS(_m->FLT4_TEST_2_phys);
  _m->FLT4_TEST_3_ro = (uint8_t) TESTDB_FLT4_TEST_3_ro_toS(_m->FLT4_TEST_3_phys);
  _m->INT_TEST_1_ro = (uint8_t) TESTDB_INT_TEST_1_ro_toS(_m->INT_TEST_1_phys);
#endif // TESTDB_USE_SIGFLOAT

  cframe->Data[0] |= (uint8_t) ( (_m->ValTable & (0x03U)) | ((_m->Position & (0x0FU)) << 4U) );
  cframe->Data[1] |= (uint8_t) ( ((_m->INT_TEST_2_ro & (0x7FU)) << 1U) );
  cframe->Data[2] |= (uint8_t) ( (_m->RC & (0x0FU)) | ((_m->CS & (0x0FU)) << 4U) );
  cframe->Data[3] |= (uint8_t) ( (_m->Accel_ro & (0xFFU)) );
  cframe->Data[4] |= (uint8_t) ( ((_m->Accel_ro >> 8U) & (0x0FU)) | ((_m->FLT4_TEST_1_ro & (0x0FU)) << 4U) );
  cframe->Data[5] |= (uint8_t) ( (_m->FLT4_TEST_2_ro & (0x0FU)) | ((_m->FLT4_TEST_3_ro & (0x0FU)) << 4U) );
  cframe->Data[6] |= (uint8_t) ( ((_m->INT_TEST_1_ro & (0x0FU)) << 2U) );

#ifdef TESTDB_AUTO_CSM
  _m->CS = ((uint8_t)GetFrameHash(cframe->Data, FLT_TEST_1_DLC, FLT_TEST_1_CANID, kXor4, 1));
  cframe->Data[2] |= (uint8_t) ( ((_m->CS & (0x0FU)) << 4U) );
#endif // TESTDB_AUTO_CSM

  cframe->MsgId = (uint32_t) FLT_TEST_1_CANID;
  cframe->DLC = (uint8_t) FLT_TEST_1_DLC;
  cframe->IDE = (uint8_t) FLT_TEST_1_IDE;
  return FLT_TEST_1_CANID;
}

#else

uint32_t Pack_FLT_TEST_1_testdb(FLT_TEST_1_t* _m, uint8_t* _d, uint8_t* _len, uint8_t* _ide)
{
  uint8_t i; for (i = 0u; i < TESTDB_VALIDATE_DLC(FLT_TEST_1_DLC); _d[i++] = TESTDB_INITIAL_BYTE_VALUE);

#ifdef TESTDB_AUTO_ROLL
  _m->RC = (_m->RC + 1) & (0x0FU);
#endif // TESTDB_AUTO_ROLL

#ifdef TESTDB_AUTO_CSM
  _m->CS = (uint8_t) 0;
#endif // TESTDB_AUTO_CSM

#ifdef TESTDB_USE_SIGFLOAT
  _m->INT_TEST_2_ro = (int8_t) TESTDB_INT_TEST_2_ro_toS(_m->INT_TEST_2_phys);
  _m->Accel_ro = (uint16_t) TESTDB_Accel_ro_toS(_m->Accel_phys);
  _m->FLT4_TEST_1_ro = (uint8_t) TESTDB_FLT4_TEST_1_ro_toS(_m->FLT4_TEST_1_phys);
  _m->FLT4_TEST_2_ro = (uint8_t) TESTDB_FLT4_TEST_2_ro_toS(_m->FLT4_TEST_2_phys);
  _m->FLT4_TEST_3_ro = (uint8_t) TESTDB_FLT4_TEST_3_ro_toS(_m->FLT4_TEST_3_phys);
  _m->INT_TEST_1_ro = (uint8_t) TESTDB_INT_TEST_1_ro_toS(_m->INT_TEST_1_phys);
#endif // TESTDB_USE_SIGFLOAT

  _d[0] |= (uint8_t) ( (_m->ValTable & (0x03U)) | ((_m->Position & (0x0FU)) << 4U) );
  _d[1] |= (uint8_t) ( ((_m->INT_TEST_2_ro & (0x7FU)) << 1U) );
  _d[2] |= (uint8_t) ( (_m->RC & (0x0FU)) | ((_m->CS & (0x0FU)) << 4U) );
  _d[3] |= (uint8_t) ( (_m->Accel_ro & (0xFFU)) );
  _d[4] |= (uint8_t) ( ((_m->Accel_ro >> 8U) & (0x0FU)) | ((_m->FLT4_TEST_1_ro & (0x0FU)) << 4U) );
  _d[5] |= (uint8_t) ( (_m->FLT4_TEST_2_ro & (0x0FU)) | ((_m->FLT4_TEST_3_ro & (0x0FU)) << 4U) );
  _d[6] |= (uint8_t) ( ((_m->INT_TEST_1_ro & (0x0FU)) << 2U) );

#ifdef TESTDB_AUTO_CSM
  _m->CS = ((uint8_t)GetFrameHash(_d, FLT_TEST_1_DLC, FLT_TEST_1_CANID, kXor4, 1));
  _d[2] |= (uint8_t) ( ((_m->CS & (0x0FU)) << 4U) );
#endif // TESTDB_AUTO_CSM

  *_len = (uint8_t) FLT_TEST_1_DLC;
  *_ide = (uint8_t) FLT_TEST_1_IDE;
  return FLT_TEST_1_CANID;
}

#endif // TESTDB_USE_CANSTRUCT

uint32_t Unpack_SIG_TEST_1_testdb(SIG_TEST_1_t* _m, const uint8_t* _d, uint8_t dlc_)
{
  (void)dlc_;
  _m->sig15_ro = (int16_t) __ext_sig__(( ((_d[1] & (0x7FU)) << 8U) | (_d[0] & (0xFFU)) ), 15);
#ifdef TESTDB_USE_SIGFLOAT
  _m->sig15_phys = (int32_t) TESTDB_sig15_ro_fromS(_m->sig15_ro);
#endif // TESTDB_USE_SIGFLOAT

  _m->sig15_2_ro = (int16_t) __ext_sig__(( ((_d[3] & (0x7FU)) << 8U) | (_d[2] & (0xFFU)) ), 15);
#ifdef TESTDB_USE_SIGFLOAT
  _m->sig15_2_phys = (sigfloat_t)(TESTDB_sig15_2_ro_fromS(_m->sig15_2_ro));
#endif // TESTDB_USE_SIGFLOAT

  _m->sig8_ro = (int8_t) __ext_sig__(( (_d[4] & (0xFFU)) ), 8);
#ifdef TESTDB_USE_SIGFLOAT
  _m->sig8_phys = (int16_t) TESTDB_sig8_ro_fromS(_m->sig8_ro);
#endif // TESTDB_USE_SIGFLOAT

  _m->sig_7_ro = (int8_t) __ext_sig__(( (_d[5] & (0x7FU)) ), 7);
#ifdef TESTDB_USE_SIGFLOAT
  _m->sig_7_phys = (sigfloat_t)(TESTDB_sig_7_ro_fromS(_m->sig_7_ro));
#endif // TESTDB_USE_SIGFLOAT

  _m->U7_TEST_1_ro = (uint8_t) ( ((_d[6] >> 1U) & (0x7FU)) );
#ifdef TESTDB_USE_SIGFLOAT
  _m->U7_TEST_1_phys = (int16_t) TESTDB_U7_TEST_1_ro_fromS(_m->U7_TEST_1_ro);
#endif // TESTDB_USE_SIGFLOAT

#ifdef TESTDB_USE_DIAG_MONITORS
  _m->mon1.dlc_error = (dlc_ < SIG_TEST_1_DLC);
  _m->mon1.last_cycle = GetSystemTick();
  _m->mon1.frame_cnt++;

  FMon_SIG_TEST_1_testdb(&_m->mon1, SIG_TEST_1_CANID);
#endif // TESTDB_USE_DIAG_MONITORS

  return SIG_TEST_1_CANID;
}

#ifdef TESTDB_USE_CANSTRUCT

uint32_t Pack_SIG_TEST_1_testdb(SIG_TEST_1_t* _m, __CoderDbcCanFrame_t__* cframe)
{
  uint8_t i; for (i = 0u; i < TESTDB_VALIDATE_DLC(SIG_TEST_1_DLC); cframe->Data[i++] = TESTDB_INITIAL_BYTE_VALUE);

#ifdef TESTDB_USE_SIGFLOAT
  _m->sig15_ro = (int16_t) TESTDB_sig15_ro_toS(_m->sig15_phys);
  _m->sig15_2_ro = (int16_t) TESTDB_sig15_2_ro_toS(_m->sig15_2_phys);
  _m->sig8_ro = (int8_t) TESTDB_sig8_ro_toS(_m->sig8_phys);
  _m->sig_7_ro = (int8_t) TESTDB_sig_7_ro_toS(_m->sig_7_phys);
  _m->U7_TEST_1_ro = (uint8_t) TESTDB_U7_TEST_1_ro_toS(_m->U7_TEST_1_phys);
#endif // TESTDB_USE_SIGFLOAT

  cframe->Data[0] |= (uint8_t) ( (_m->sig15_ro & (0xFFU)) );
  cframe->Data[1] |= (uint8_t) ( ((_m->sig15_ro >> 8U) & (0x7FU)) );
  cframe->Data[2] |= (uint8_t) ( (_m->sig15_2_ro & (0xFFU)) );
  cframe->Data[3] |= (uint8_t) ( ((_m->sig15_2_ro >> 8U) & (0x7FU)) );
  cframe->Data[4] |= (uint8_t) ( (_m->sig8_ro & (0xFFU)) );
  cframe->Data[5] |= (uint8_t) ( (_m->sig_7_ro & (0x7FU)) );
  cframe->Data[6] |= (uint8_t) ( ((_m->U7_TEST_1_ro & (0x7FU)) << 1U) );

  cframe->MsgId = (uint32_t) SIG_TEST_1_CANID;
  cframe->DLC = (uint8_t) SIG_TEST_1_DLC;
  cframe->IDE = (uint8_t) SIG_TEST_1_IDE;
  return SIG_TEST_1_CANID;
}

#else

uint32_t Pack_SIG_TEST_1_testdb(SIG_TEST_1_t* _m, uint8_t* _d, uint8_t* _len, uint8_t* _ide)
{
  uint8_t i; for (i = 0u; i < TESTDB_VALIDATE_DLC(SIG_TEST_1_DLC); _d[i++] = TESTDB_INITIAL_BYTE_VALUE);

#ifdef TESTDB_USE_SIGFLOAT
  _m->sig15_ro = (int16_t) TESTDB_sig15_ro_toS(_m->sig15_phys);
  _m->sig15_2_ro = (int16_t) TESTDB_sig15_2_ro_toS(_m->sig15_2_phys);
  _m->sig8_ro = (int8_t) TESTDB_sig8_ro_toS(_m->sig8_phys);
  _m->sig_7_ro = (int8_t) TESTDB_sig_7_ro_toS(_m->sig_7_phys);
  _m->U7_TEST_1_ro = (uint8_t) TESTDB_U7_TEST_1_ro_toS(_m->U7_TEST_1_phys);
#endif // TESTDB_USE_SIGFLOAT

  _d[0] |= (uint8_t) ( (_m->sig15_ro & (0xFFU)) );
  _d[1] |= (uint8_t) ( ((_m->sig15_ro >> 8U) & (0x7FU)) );
  _d[2] |= (uint8_t) ( (_m->sig15_2_ro & (0xFFU)) );
  _d[3] |= (uint8_t) ( ((_m->sig15_2_ro >> 8U) & (0x7FU)) );
  _d[4] |= (uint8_t) ( (_m->sig8_ro & (0xFFU)) );
  _d[5] |= (uint8_t) ( (_m->sig_7_ro & (0x7FU)) );
  _d[6] |= (uint8_t) ( ((_m->U7_TEST_1_ro & (0x7FU)) << 1U) );

  *_len = (uint8_t) SIG_TEST_1_DLC;
  *_ide = (uint8_t) SIG_TEST_1_IDE;
  return SIG_TEST_1_CANID;
}

#endif // TESTDB_USE_CANSTRUCT

uint32_t Unpack_EMPTY_EXT_ID_testdb(EMPTY_EXT_ID_t* _m, const uint8_t* _d, uint8_t dlc_)
{
  (void)dlc_;
  _m->ValTest = (uint8_t) ( ((_d[0] >> 6U) & (0x03U)) );
  _m->CS = (uint8_t) ( (_d[1] & (0x3FU)) );

#ifdef TESTDB_USE_DIAG_MONITORS
  _m->mon1.dlc_error = (dlc_ < EMPTY_EXT_ID_DLC);
  _m->mon1.last_cycle = GetSystemTick();
  _m->mon1.frame_cnt++;

#ifdef TESTDB_AUTO_CSM
  _m->mon1.csm_error = (((uint8_t)GetFrameHash(_d, EMPTY_EXT_ID_DLC, EMPTY_EXT_ID_CANID, kXor8, 1)) != (_m->CS));
#endif // TESTDB_AUTO_CSM

  FMon_EMPTY_EXT_ID_testdb(&_m->mon1, EMPTY_EXT_ID_CANID);
#endif // TESTDB_USE_DIAG_MONITORS

  return EMPTY_EXT_ID_CANID;
}

#ifdef TESTDB_USE_CANSTRUCT

uint32_t Pack_EMPTY_EXT_ID_testdb(EMPTY_EXT_ID_t* _m, __CoderDbcCanFrame_t__* cframe)
{
  uint8_t i; for (i = 0u; i < TESTDB_VALIDATE_DLC(EMPTY_EXT_ID_DLC); cframe->Data[i++] = TESTDB_INITIAL_BYTE_VALUE);

#ifdef TESTDB_AUTO_CSM
  _m->CS = (uint8_t) 0;
#endif // TESTDB_AUTO_CSM

  cframe->Data[0] |= (uint8_t) ( ((_m->ValTest & (0x03U)) << 6U) );
  cframe->Data[1] |= (uint8_t) ( (_m->CS & (0x3FU)) );

#ifdef TESTDB_AUTO_CSM
  _m->CS = ((uint8_t)GetFrameHash(cframe->Data, EMPTY_EXT_ID_DLC, EMPTY_EXT_ID_CANID, kXor8, 1));
  cframe->Data[1] |= (uint8_t) ( (_m->CS & (0x3FU)) );
#endif // TESTDB_AUTO_CSM

  cframe->MsgId = (uint32_t) EMPTY_EXT_ID_CANID;
  cframe->DLC = (uint8_t) EMPTY_EXT_ID_DLC;
  cframe->IDE = (uint8_t) EMPTY_EXT_ID_IDE;
  return EMPTY_EXT_ID_CANID;
}

#else

uint32_t Pack_EMPTY_EXT_ID_testdb(EMPTY_EXT_ID_t* _m, uint8_t* _d, uint8_t* _len, uint8_t* _ide)
{
  uint8_t i; for (i = 0u; i < TESTDB_VALIDATE_DLC(EMPTY_EXT_ID_DLC); _d[i++] = TESTDB_INITIAL_BYTE_VALUE);

#ifdef TESTDB_AUTO_CSM
  _m->CS = (uint8_t) 0;
#endif // TESTDB_AUTO_CSM

  _d[0] |= (uint8_t) ( ((_m->ValTest & (0x03U)) << 6U) );
  _d[1] |= (uint8_t) ( (_m->CS & (0x3FU)) );

#ifdef TESTDB_AUTO_CSM
  _m->CS = ((uint8_t)GetFrameHash(_d, EMPTY_EXT_ID_DLC, EMPTY_EXT_ID_CANID, kXor8, 1));
  _d[1] |= (uint8_t) ( (_m->CS & (0x3FU)) );
#endif // TESTDB_AUTO_CSM

  *_len = (uint8_t) EMPTY_EXT_ID_DLC;
  *_ide = (uint8_t) EMPTY_EXT_ID_IDE;
  return EMPTY_EXT_ID_CANID;
}

#endif // TESTDB_USE_CANSTRUCT

".

Definition golden_13 : string :=
"// Generator version : v3.1
// DBC filename      : testdb.dbc
#pragma once

#ifdef __cplusplus
extern ""C"" {
#endif

#include <stdint.h>

// DBC file version
#define VER_TESTDB_MAJ (1U)
#define VER_TESTDB_MIN (10U)

// include current dbc-driver compilation config
#include ""testdb-config.h""

#ifdef TESTDB_USE_DIAG_MONITORS
// This file must define:
// base monitor struct
#include ""canmonitorutil.h""

#endif // TESTDB_USE_DIAG_MONITORS


// DLC maximum value which is used as the limit for frame's data buffer size.
// Client can set its own value (not sure why) in driver-config
// or can test it on some limit specified by application
// e.g.: static_assert(TESTDB_MAX_DLC_VALUE <= APPLICATION_FRAME_DATA_SIZE, ""Max DLC value in the driver is too big"")
#ifndef TESTDB_MAX_DLC_VALUE
// The value which was found out by generator (real max value)
#define TESTDB_MAX_DLC_VALUE 8U
#endif

// The limit is used for setting frame's data bytes
#define TESTDB_VALIDATE_DLC(msgDlc) (((msgDlc) <= (TESTDB_MAX_DLC_VALUE)) ? (msgDlc) : (TESTDB_MAX_DLC_VALUE))

// Initial byte value to be filles in data bytes of the frame before pack signals
// User can define its own custom value in driver-config file
#ifndef TESTDB_INITIAL_BYTE_VALUE
#define TESTDB_INITIAL_BYTE_VALUE 0U
#endif


// def @NO_SIGS_MSG CAN Message (273  0x111)
#define NO_SIGS_MSG_IDE (0U)
#define NO_SIGS_MSG_DLC (8U)
#define NO_SIGS_MSG_CANID (0x111U)

// def @UTEST_2 CAN Message (333  0x14d)
#define UTEST_2_IDE (0U)
#define UTEST_2_DLC (8U)
#define UTEST_2_CANID (0x14dU)

// Value tables for @ValTest signal

#ifndef ValTest_UTEST_2_Unsupported
#define ValTest_UTEST_2_Unsupported (3)
#endif

#ifndef ValTest_UTEST_2_Fail
#define ValTest_UTEST_2_Fail (2)
#endif

#ifndef ValTest_UTEST_2_OK
#define ValTest_UTEST_2_OK (1)
#endif

#ifndef ValTest_UTEST_2_Undefined
#define ValTest_UTEST_2_Undefined (0)
#endif

// signal: @U7_TEST_1_ro
#define TESTDB_U7_TEST_1_ro_CovFactor (1)
#define TESTDB_U7_TEST_1_ro_toS(x) ( (uint8_t) ((x) - (-255)) )
#define TESTDB_U7_TEST_1_ro_fromS(x) ( ((x) + (-255)) )

typedef struct
{
#ifdef TESTDB_USE_BITS_SIGNAL

  uint32_t U28_TEST_1;                       //      Bits=28

  // This is test signal for Value Table
  // 
  // 
  // 
  // 
  // 
  // 
  //  3 : ""Unsupported""
  //  2 : ""Fail""
  //  1 : ""OK""
  //  0 : ""Undefined""
  uint8_t ValTest : 2;                       //      Bits= 2 Unit:'c'

  uint8_t U8_TEST_1;                         //      Bits= 8

  uint8_t U7_TEST_1_ro : 7;                  //      Bits= 7 Offset= -255

#ifdef TESTDB_USE_SIGFLOAT
  int16_t U7_TEST_1_phys;
#endif // TESTDB_USE_SIGFLOAT

#else

  uint32_t U28_TEST_1;                       //      Bits=28

  // This is test signal for Value Table
  // 
  // 
  // 
  // 
  // 
  // 
  //  3 : ""Unsupported""
  //  2 : ""Fail""
  //  1 : ""OK""
  //  0 : ""Undefined""
  uint8_t ValTest;                           //      Bits= 2 Unit:'c'

  uint8_t U8_TEST_1;                         //      Bits= 8

  uint8_t U7_TEST_1_ro;                      //      Bits= 7 Offset= -255

#ifdef TESTDB_USE_SIGFLOAT
  int16_t U7_TEST_1_phys;
#endif // TESTDB_USE_SIGFLOAT

#endif // TESTDB_USE_BITS_SIGNAL

#ifdef TESTDB_USE_DIAG_MONITORS

  FrameMonitor_t mon1;

#endif // TESTDB_USE_DIAG_MONITORS

} UTEST_2_t;

// def @EMPTY_0 CAN Message (352  0x160)
#define EMPTY_0_IDE (0U)
#define EMPTY_0_DLC (8U)
#define EMPTY_0_CANID (0x160U)
#define EMPTY_0_CYC (101U)

typedef struct
{
#ifdef TESTDB_USE_BITS_SIGNAL

  // <Checksum:kXor8:1> test pattern
  uint8_t CS : 6;                            //      Bits= 6

  // <RollingCounter>
  uint8_t RC : 4;                            //      Bits= 4

#ifdef TESTDB_AUTO_ROLL

  uint8_t RC_expt : 4;                       //      Bits= 4

#endif // TESTDB_AUTO_ROLL

#else

  // <Checksum:kXor8:1> test pattern
  uint8_t CS;                                //      Bits= 6

  // <RollingCounter>
  uint8_t RC;                                //      Bits= 4

#ifdef TESTDB_AUTO_ROLL

  uint8_t RC_expt;                           //      Bits= 4

#endif // TESTDB_AUTO_ROLL

#endif // TESTDB_USE_BITS_SIGNAL

#ifdef TESTDB_USE_DIAG_MONITORS

  FrameMonitor_t mon1;

#endif // TESTDB_USE_DIAG_MONITORS

} EMPTY_0_t;

// def @UTEST_3 CAN Message (555  0x22b)
#define UTEST_3_IDE (0U)
#define UTEST_3_DLC (8U)
#define UTEST_3_CANID (0x22bU)

// Value tables for @TestValTableID signal

#ifndef TestValTableID_UTEST_3_Description_for_the_value_0x7
#define TestValTableID_UTEST_3_Description_for_the_value_0x7 (-2)
#endif

#ifndef TestValTableID_UTEST_3_Udef
#define TestValTableID_UTEST_3_Udef (-1)
#endif

#ifndef TestValTableID_UTEST_3_Udef
#define TestValTableID_UTEST_3_Udef (6)
#endif

#ifndef TestValTableID_UTEST_3_Udef
#define TestValTableID_UTEST_3_Udef (5)
#endif

#ifndef TestValTableID_UTEST_3_Udef
#define TestValTableID_UTEST_3_Udef (4)
#endif

#ifndef TestValTableID_UTEST_3_Error
#define TestValTableID_UTEST_3_Error (3)
#endif

#ifndef TestValTableID_UTEST_3_Ok
#define TestValTableID_UTEST_3_Ok (2)
#endif

#ifndef TestValTableID_UTEST_3_State_one
#define TestValTableID_UTEST_3_State_one (1)
#endif

#ifndef TestValTableID_UTEST_3_State_1
#define TestValTableID_UTEST_3_State_1 (0)
#endif


typedef struct
{
#ifdef TESTDB_USE_BITS_SIGNAL

  uint32_t U32_TEST_1;                       //      Bits=32

  //  -2 : ""Description for the value '0x7'""
  //  -1 : ""Udef""
  //  6 : ""Udef""
  //  5 : ""Udef""
  //  4 : ""Udef""
  //  3 : ""Error""
  //  2 : ""Ok""
  //  1 : ""State one""
  //  0 : ""State 1""
  uint8_t TestValTableID : 3;                //      Bits= 3

#else

  uint32_t U32_TEST_1;                       //      Bits=32

  //  -2 : ""Description for the value '0x7'""
  //  -1 : ""Udef""
  //  6 : ""Udef""
  //  5 : ""Udef""
  //  4 : ""Udef""
  //  3 : ""Error""
  //  2 : ""Ok""
  //  1 : ""State one""
  //  0 : ""State 1""
  uint8_t TestValTableID;                    //      Bits= 3

#endif // TESTDB_USE_BITS_SIGNAL

#ifdef TESTDB_USE_DIAG_MONITORS

  FrameMonitor_t mon1;

#endif // TESTDB_USE_DIAG_MONITORS

} UTEST_3_t;

// def @FLT_TEST_1 CAN Message (864  0x360)
#define FLT_TEST_1_IDE (0U)
#define FLT_TEST_1_DLC (8U)
#define FLT_TEST_1_CANID (0x360U)
#define FLT_TEST_1_CYC (101U)

// Value tables for @ValTable signal

#ifndef ValTable_FLT_TEST_1_Unsupported
#define ValTable_FLT_TEST_1_Unsupported (3)
#endif

#ifndef ValTable_FLT_TEST_1_Fail
#define ValTable_FLT_TEST_1_Fail (2)
#endif

#ifndef ValTable_FLT_TEST_1_OK
#define ValTable_FLT_TEST_1_OK (1)
#endif

#ifndef ValTable_FLT_TEST_1_Undefined
#define ValTable_FLT_TEST_1_Undefined (0)
#endif

// signal: @INT_TEST_2_ro
#define TESTDB_INT_TEST_2_ro_CovFactor (5)
#define TESTDB_INT_TEST_2_ro_toS(x) ( (int8_t) ((x) / (5)) )
#define TESTDB_INT_TEST_2_ro_fromS(x) ( ((x) * (5)) )
// signal: @Accel_ro
#define TESTDB_Accel_ro_CovFactor (0.1)
#define TESTDB_Accel_ro_toS(x) ( (uint16_t) (((x) - (-100.0)) / (0.1)) )
#define TESTDB_Accel_ro_fromS(x) ( (((x) * (0.1)) + (-100.0)) )
// signal: @FLT4_TEST_1_ro
#define TESTDB_FLT4_TEST_1_ro_CovFactor (2.01)
#define TESTDB_FLT4_TEST_1_ro_toS(x) ( (uint8_t) (((x) - (-0.01)) / (2.01)) )
#define TESTDB_FLT4_TEST_1_ro_fromS(x) ( (((x) * (2.01)) + (-0.01)) )
// signal: @FLT4_TEST_2_ro
#define TESTDB_FLT4_TEST_2_ro_CovFactor (2.01)
#define TESTDB_FLT4_TEST_2_ro_toS(x) ( (uint8_t) (((x) - (-5.0)) / (2.01)) )
#define TESTDB_FLT4_TEST_2_ro_fromS(x) ( (((x) * (2.01)) + (-5.0)) )
// signal: @FLT4_TEST_3_ro
#define TESTDB_FLT4_TEST_3_ro_CovFactor (2.0)
#define TESTDB_FLT4_TEST_3_ro_toS(x) ( (uint8_t) (((x) - (-10.1)) / (2.0)) )
#define TESTDB_FLT4_TEST_3_ro_fromS(x) ( (((x) * (2.0)) + (-10.1)) )
// signal: @INT_TEST_1_ro
#define TESTDB_INT_TEST_1_ro_CovFactor (9)
#define TESTDB_INT_TEST_1_ro_toS(x) ( (uint8_t) (((x) - (-11)) / (9)) )
#define TESTDB_INT_TEST_1_ro_fromS(x) ( (((x) * (9)) + (-11)) )

typedef struct
{
#ifdef TESTDB_USE_BITS_SIGNAL

  // This is just comment.
  // Next line.
  //  3 : ""Unsupported""
  //  2 : ""Fail""
  //  1 : ""OK""
  //  0 : ""Undefined""
  uint8_t ValTable : 2;                      //      Bits= 2 Unit:'e'

  uint8_t Position : 4;                      //      Bits= 4

  int8_t INT_TEST_2_ro : 7;                  //  [-] Bits= 7 Factor= 5

#ifdef TESTDB_USE_SIGFLOAT
  int16_t INT_TEST_2_phys;
#endif // TESTDB_USE_SIGFLOAT

  // <RollingCounter>
  uint8_t RC : 4;                            //      Bits= 4

  // <Checksum:kXor4:1>
  uint8_t CS : 4;                            //      Bits= 4

  // Test floating point value.
  uint16_t Accel_ro;                         //      Bits=12 Offset= -100.0             Factor= 0.1             Unit:'m/s'

#ifdef TESTDB_USE_SIGFLOAT
  sigfloat_t Accel_phys;
#endif // TESTDB_USE_SIGFLOAT

  uint8_t FLT4_TEST_1_ro : 4;                //      Bits= 4 Offset= -0.01              Factor= 2.01

#ifdef TESTDB_USE_SIGFLOAT
  sigfloat_t FLT4_TEST_1_phys;
#endif // TESTDB_USE_SIGFLOAT

  uint8_t FLT4_TEST_2_ro : 4;                //      Bits= 4 Offset= -5.0               Factor= 2.01

#ifdef TESTDB_USE_SIGFLOAT
  sigfloat_t FLT4_TEST_2_phys;
#endif // TESTDB_USE_SIGFLOAT

  uint8_t FLT4_TEST_3_ro : 4;                //      Bits= 4 Offset= -10.1              Factor= 2.0

#ifdef TESTDB_USE_SIGFLOAT
  sigfloat_t FLT4_TEST_3_phys;
#endif // TESTDB_USE_SIGFLOAT

  uint8_t INT_TEST_1_ro : 4;                 //      Bits= 4 Offset= -11                Factor= 9

#ifdef TESTDB_USE_SIGFLOAT
  int8_t INT_TEST_1_phys;
#endif // TESTDB_USE_SIGFLOAT

#ifdef TESTDB_AUTO_ROLL

  uint8_t RC_expt : 4;                       //      Bits= 4

#endif // TESTDB_AUTO_ROLL

#else

  // This is just comment.
  // Next line.
  //  3 : ""Unsupported""
  //  2 : ""Fail""
  //  1 : ""OK""
  //  0 : ""Undefined""
  uint8_t ValTable;                          //      Bits= 2 Unit:'e'

  uint8_t Position;                          //      Bits= 4

  int8_t INT_TEST_2_ro;                      //  [-] Bits= 7 Factor= 5

#ifdef TESTDB_USE_SIGFLOAT
  int16_t INT_TEST_2_phys;
#endif // TESTDB_USE_SIGFLOAT

  // <RollingCounter>
  uint8_t RC;                                //      Bits= 4

  // <Checksum:kXor4:1>
  uint8_t CS;                                //      Bits= 4

  // Test floating point value.
  uint16_t Accel_ro;                         //      Bits=12 Offset= -100.0             Factor= 0.1             Unit:'m/s'

#ifdef TESTDB_USE_SIGFLOAT
  sigfloat_t Accel_phys;
#endif // TESTDB_USE_SIGFLOAT

  uint8_t FLT4_TEST_1_ro;                    //      Bits= 4 Offset= -0.01              Factor= 2.01

#ifdef TESTDB_USE_SIGFLOAT
  sigfloat_t FLT4_TEST_1_phys;
#endif // TESTDB_USE_SIGFLOAT

  uint8_t FLT4_TEST_2_ro;                    //      Bits= 4 Offset= -5.0               Factor= 2.01

#ifdef TESTDB_USE_SIGFLOAT
  sigfloat_t FLT4_TEST_2_phys;
#endif // TESTDB_USE_SIGFLOAT

  uint8_t FLT4_TEST_3_ro;                    //      Bits= 4 Offset= -10.1              Factor= 2.0

#ifdef TESTDB_USE_SIGFLOAT
  sigfloat_t FLT4_TEST_3_phys;
#endif // TESTDB_USE_SIGFLOAT

  uint8_t INT_TEST_1_ro;                     //      Bits= 4 Offset= -11                Factor= 9

#ifdef TESTDB_USE_SIGFLOAT
  int8_t INT_TEST_1_phys;
#endif // TESTDB_USE_SIGFLOAT

#ifdef TESTDB_AUTO_ROLL

  uint8_t RC_expt;                           //      Bits= 4

#endif // TESTDB_AUTO_ROLL

#endif // TESTDB_USE_BITS_SIGNAL

#ifdef TESTDB_USE_DIAG_MONITORS

  FrameMonitor_t mon1;

#endif // TESTDB_USE_DIAG_MONITORS

} FLT_TEST_1_t;

// def @SIG_TEST_1 CAN Message (1911 0x777)
#define SIG_TEST_1_IDE (0U)
#define SIG_TEST_1_DLC (8U)
#define SIG_TEST_1_CANID (0x777U)
// signal: @sig15_ro
#define TESTDB_sig15_ro_CovFactor (3)
#define TESTDB_sig15_ro_toS(x) ( (int16_t) (((x) - (-1024)) / (3)) )
#define TESTDB_sig15_ro_fromS(x) ( (((x) * (3)) + (-1024)) )
// signal: @sig15_2_ro
#define TESTDB_sig15_2_ro_CovFactor (1.9)
#define TESTDB_sig15_2_ro_toS(x) ( (int16_t) (((x) - (-2500.0)) / (1.9)) )
#define TESTDB_sig15_2_ro_fromS(x) ( (((x) * (1.9)) + (-2500.0)) )
// signal: @sig8_ro
#define TESTDB_sig8_ro_CovFactor (5)
#define TESTDB_sig8_ro_toS(x) ( (int8_t) ((x) / (5)) )
#define TESTDB_sig8_ro_fromS(x) ( ((x) * (5)) )
// signal: @sig_7_ro
#define TESTDB_sig_7_ro_CovFactor (1.2)
#define TESTDB_sig_7_ro_toS(x) ( (int8_t) (((x) - (0.0)) / (1.2)) )
#define TESTDB_sig_7_ro_fromS(x) ( (((x) * (1.2)) + (0.0)) )

typedef struct
{
#ifdef TESTDB_USE_BITS_SIGNAL

  int16_t sig15_ro;                          //  [-] Bits=15 Offset= -1024              Factor= 3

#ifdef TESTDB_USE_SIGFLOAT
  int32_t sig15_phys;
#endif // TESTDB_USE_SIGFLOAT

  int16_t sig15_2_ro;                        //  [-] Bits=15 Offset= -2500.0            Factor= 1.9

#ifdef TESTDB_USE_SIGFLOAT
  sigfloat_t sig15_2_phys;
#endif // TESTDB_USE_SIGFLOAT

  int8_t sig8_ro;                            //  [-] Bits= 8 Factor= 5

#ifdef TESTDB_USE_SIGFLOAT
  int16_t sig8_phys;
#endif // TESTDB_USE_SIGFLOAT

  int8_t sig_7_ro : 7;                       //  [-] Bits= 7 Factor= 1.2

#ifdef TESTDB_USE_SIGFLOAT
  sigfloat_t sig_7_phys;
#endif // TESTDB_USE_SIGFLOAT

  uint8_t U7_TEST_1_ro : 7;                  //      Bits= 7 Offset= -255

#ifdef TESTDB_USE_SIGFLOAT
  int16_t U7_TEST_1_phys;
#endif // TESTDB_USE_SIGFLOAT

#else

  int16_t sig15_ro;                          //  [-] Bits=15 Offset= -1024              Factor= 3

#ifdef TESTDB_USE_SIGFLOAT
  int32_t sig15_phys;
#endif // TESTDB_USE_SIGFLOAT

  int16_t sig15_2_ro;                        //  [-] Bits=15 Offset= -2500.0            Factor= 1.9

#ifdef TESTDB_USE_SIGFLOAT
  sigfloat_t sig15_2_phys;
#endif // TESTDB_USE_SIGFLOAT

  int8_t sig8_ro;                            //  [-] Bits= 8 Factor= 5

#ifdef TESTDB_USE_SIGFLOAT
  int16_t sig8_phys;
#endif // TESTDB_USE_SIGFLOAT

  int8_t sig_7_ro;                           //  [-] Bits= 7 Factor= 1.2

#ifdef TESTDB_USE_SIGFLOAT
  sigfloat_t sig_7_phys;
#endif // TESTDB_USE_SIGFLOAT

  uint8_t U7_TEST_1_ro;                      //      Bits= 7 Offset= -255

#ifdef TESTDB_USE_SIGFLOAT
  int16_t U7_TEST_1_phys;
#endif // TESTDB_USE_SIGFLOAT

#endif // TESTDB_USE_BITS_SIGNAL

#ifdef TESTDB_USE_DIAG_MONITORS

  FrameMonitor_t mon1;

#endif // TESTDB_USE_DIAG_MONITORS

} SIG_TEST_1_t;

// def @EMPTY_EXT_ID CAN Message (536870902 0x1ffffff6)
#define EMPTY_EXT_ID_IDE (1U)
#define EMPTY_EXT_ID_DLC (8U)
#define EMPTY_EXT_ID_CANID (0x1ffffff6U)

// Value tables for @ValTest signal

#ifndef ValTest_EMPTY_EXT_ID_Unsupported
#define ValTest_EMPTY_EXT_ID_Unsupported (3)
#endif

#ifndef ValTest_EMPTY_EXT_ID_Fail
#define ValTest_EMPTY_EXT_ID_Fail (2)
#endif

#ifndef ValTest_EMPTY_EXT_ID_OK
#define ValTest_EMPTY_EXT_ID_OK (1)
#endif

#ifndef ValTest_EMPTY_EXT_ID_Undefined
#define ValTest_EMPTY_EXT_ID_Undefined (0)
#endif


typedef struct
{
#ifdef TESTDB_USE_BITS_SIGNAL

  // This is test signal for Value Table
  // 
  // 
  // 
  // 
  // 
  // 
  //  3 : ""Unsupported""
  //  2 : ""Fail""
  //  1 : ""OK""
  //  0 : ""Undefined""
  uint8_t ValTest : 2;                       //      Bits= 2 Unit:'c'

  // <Checksum:kXor8:1> test pattern
  uint8_t CS : 6;                            //      Bits= 6

#else

  // This is test signal for Value Table
  // 
  // 
  // 
  // 
  // 
  // 
  //  3 : ""Unsupported""
  //  2 : ""Fail""
  //  1 : ""OK""
  //  0 : ""Undefined""
  uint8_t ValTest;                           //      Bits= 2 Unit:'c'

  // <Checksum:kXor8:1> test pattern
  uint8_t CS;                                //      Bits= 6

#endif // TESTDB_USE_BITS_SIGNAL

#ifdef TESTDB_USE_DIAG_MONITORS

  FrameMonitor_t mon1;

#endif // TESTDB_USE_DIAG_MONITORS

} EMPTY_EXT_ID_t;

// Function signatures

uint32_t Unpack_UTEST_2_testdb(UTEST_2_t* _m, const uint8_t* _d, uint8_t dlc_);
#ifdef TESTDB_USE_CANSTRUCT
uint32_t Pack_UTEST_2_testdb(UTEST_2_t* _m, __CoderDbcCanFrame_t__* cframe);
#else
uint32_t Pack_UTEST_2_testdb(UTEST_2_t* _m, uint8_t* _d, uint8_t* _len, uint8_t* _ide);
#endif // TESTDB_USE_CANSTRUCT

uint32_t Unpack_EMPTY_0_testdb(EMPTY_0_t* _m, const uint8_t* _d, uint8_t dlc_);
#ifdef TESTDB_USE_CANSTRUCT
uint32_t Pack_EMPTY_0_testdb(EMPTY_0_t* _m, __CoderDbcCanFrame_t__* cframe);
#else
uint32_t Pack_EMPTY_0_testdb(EMPTY_0_t* _m, uint8_t* _d, uint8_t* _len, uint8_t* _ide);
#endif // TESTDB_USE_CANSTRUCT

uint32_t Unpack_UTEST_3_testdb(UTEST_3_t* _m, const uint8_t* _d, uint8_t dlc_);
#ifdef TESTDB_USE_CANSTRUCT
uint32_t Pack_UTEST_3_testdb(UTEST_3_t* _m, __CoderDbcCanFrame_t__* cframe);
#else
uint32_t Pack_UTEST_3_testdb(UTEST_3_t* _m, uint8_t* _d, uint8_t* _len, uint8_t* _ide);
#endif // TESTDB_USE_CANSTRUCT

uint32_t Unpack_FLT_TEST_1_testdb(FLT_TEST_1_t* _m, const uint8_t* _d, uint8_t dlc_);
#ifdef TESTDB_USE_CANSTRUCT
uint32_t Pack_FLT_TEST_1_testdb(FLT_TEST_1_t* _m, __CoderDbcCanFrame_t__* cframe);
#else
uint32_t Pack_FLT_TEST_1_testdb(FLT_TEST_1_t* _m, uint8_t* _d, uint8_t* _len, uint8_t* _ide);
#endif // TESTDB_USE_CANSTRUCT

uint32_t Unpack_SIG_TEST_1_testdb(SIG_TEST_1_t* _m, const uint8_t* _d, uint8_t dlc_);
#ifdef TESTDB_USE_CANSTRUCT
uint32_t Pack_SIG_TEST_1_testdb(SIG_TEST_1_t* _m, __CoderDbcCanFrame_t__* cframe);
#else
uint32_t Pack_SIG_TEST_1_testdb(SIG_TEST_1_t* _m, uint8_t* _d, uint8_t* _len, uint8_t* _ide);
#endif // TESTDB_USE_CANSTRUCT

uint32_t Unpack_EMPTY_EXT_ID_testdb(EMPTY_EXT_ID_t* _m, const uint8_t* _d, uint8_t dlc_);
#ifdef TESTDB_USE_CANSTRUCT
uint32_t Pack_EMPTY_EXT_ID_testdb(EMPTY_EXT_ID_t* _m, __CoderDbcCanFrame_t__* cframe);
#else
uint32_t Pack_EMPTY_EXT_ID_testdb(EMPTY_EXT_ID_t* _m, uint8_t* _d, uint8_t* _len, uint8_t* _ide);
#endif // TESTDB_USE_CANSTRUCT

#ifdef __cplusplus
}
#endif
".

Definition golden_14 : string :=
"// Generator version : v3.1
// DBC filename      : testdb.dbc
#include ""testdb-fmon.h""

#ifdef TESTDB_USE_DIAG_MONITORS

/*
Put the monitor function content here, keep in mind -
next generation will completely clear all manually added code (!)
*/

#ifdef TESTDB_USE_MONO_FMON

void _FMon_MONO_testdb(FrameMonitor_t* _mon, uint32_t msgid)
{
  (void)_mon;
  (void)msgid;
}

#else

void _FMon_NO_SIGS_MSG_testdb(FrameMonitor_t* _mon, uint32_t msgid)
{
  (void)_mon;
  (void)msgid;
}

void _FMon_UTEST_2_testdb(FrameMonitor_t* _mon, uint32_t msgid)
{
  (void)_mon;
  (void)msgid;
}

void _FMon_EMPTY_0_testdb(FrameMonitor_t* _mon, uint32_t msgid)
{
  (void)_mon;
  (void)msgid;
}

void _FMon_UTEST_3_testdb(FrameMonitor_t* _mon, uint32_t msgid)
{
  (void)_mon;
  (void)msgid;
}

void _FMon_FLT_TEST_1_testdb(FrameMonitor_t* _mon, uint32_t msgid)
{
  (void)_mon;
  (void)msgid;
}

void _FMon_SIG_TEST_1_testdb(FrameMonitor_t* _mon, uint32_t msgid)
{
  (void)_mon;
  (void)msgid;
}

void _FMon_EMPTY_EXT_ID_testdb(FrameMonitor_t* _mon, uint32_t msgid)
{
  (void)_mon;
  (void)msgid;
}

#endif // TESTDB_USE_MONO_FMON

#endif // TESTDB_USE_DIAG_MONITORS
".

Definition golden : list (string * string) :=
  [("test/gencode/butl/bcm_testdb-binutil.c", golden_0);
   ("test/gencode/butl/bcm_testdb-binutil.h", golden_1);
   ("test/gencode/butl/bms_testdb-binutil.c", golden_2);
   ("test/gencode/butl/bms_testdb-binutil.h", golden_3);
   ("test/gencode/butl/eps_testdb-binutil.c", golden_4);
   ("test/gencode/butl/eps_testdb-binutil.h", golden_5);
   ("test/gencode/butl/esp_testdb-binutil.c", golden_6);
   ("test/gencode/butl/esp_testdb-binutil.h", golden_7);
   ("test/gencode/conf/dbccodeconf.h", golden_8);
   ("test/gencode/conf/testdb-config.h", golden_9);
   ("test/gencode/inc/canmonitorutil.h", golden_10);
   ("test/gencode/lib/testdb-fmon.h", golden_11);
   ("test/gencode/lib/testdb.c", golden_12);
   ("test/gencode/lib/testdb.h", golden_13);
   ("test/gencode/usr/testdb-fmon.c", golden_14)].


Definition start_fs : fs :=
  {| fs_get := fun p =>
       if path_eqb p ["test"; "testdb.dbc"] then Some (File testdb_dbc)
       else if path_eqb p ["test"] || path_eqb p ["test"; "gencode"] then Some Dir
       else None;
     fs_deny := fun _ => false |}.

Definition golden_result : res fs :=
  run isort "" ["./coderdbc"; "-dbc"; "test/testdb.dbc"; "-out"; "test/gencode"; "-drvname";
                "testdb"; "-nodeutils"; "-rw"] start_fs.

Definition golden_ok : bool :=
  match golden_result with
  | Ok f => forallb (fun pt => match look f (norm (fst pt)) with
                               | Some (File t) => String.eqb t (snd pt)
                               | _ => false
                               end) golden
  | _ => false
  end.
Example golden_check : golden_ok = true.
Proof. vm_compute. reflexivity. Qed.
