CTrack|PropsTrack|Properties of particle tracking: C01-C09, C44.
CRecon|PropsRecon|Properties of the reconstruction: C18-C32.
CParticles|PropsParticles|Properties of particle handling: C14-C17.
CImage|PropsImage|Properties of phase-space images: C34, C35.
CPreproc|PropsPreproc|Treatment of raw data
CMulti|PropsMulti|Theorems on the multi-bunch reconstruction (C33).
CInput|PropsInput|Theorems on input files and machine settings (C42, C43, C56).
CMachine|PropsMachine|Theorems on the machine turn by turn (C11, C12, C45-C47).
CSelf|PropsSelf|Theorems on tracking with self-fields (C13, C50).
COmp|PropsOmp|Theorems on parallel loops (C10).
CLimits|PropsLimits|Limits of the reconstruction area
CConfig|PropsConfig|Theorems on the switches for device and precision (C51).
CPost|PropsPost|Theorems on the numbers that describe a beam (C52, C53, C47).
CFoot|PropsFoot|Theorems on the foot tangent fits and on the emittance of a density (C54, C57).
COutput|PropsOutput|Theorems on the output files and on the plot information (C55, C58, C59).
CGpu|PropsGpu|Theorems on the reconstruction and the tracking on the GPU (C60-C63).
CPrograms|PropsPrograms|Theorems on the machine built from programs (C64-C68).
CSin|PropsSin|Theorems on the fast sine and on tracking with rounding (C69-C71).
CFit|PropsFit|Theorems on the fitted synchronous bin and on the charge of a profile (C72, C73).
CRun|PropsRun|Theorems on a whole reconstruction (C74-C80).
CFloat|PropsFloat|Theorems on the reconstruction with rounding (C81-C84).
CArea|PropsArea|Theorems on the matched area of a bunch (C85).
CArea2|PropsArea2|Theorems on contours, the density inside them and clipped weights (C86-C88).
CArea3|PropsArea3|Theorems on the values of the density scan and the marked particles (C87, C88).
CInt|PropsInt|Theorems on 32-bit integers (C89-C91).
CCount|PropsCount|Theorems on the number of particles in a bin with rounding (C92).
CPhi12|PropsPhi12|Theorems on the phase between two RF systems (C93).
CObjects|PropsObjects|Theorems on keyword arguments (C94).
CHistory|PropsHistory|Theorems on histories of a machine object (C95).
CFields|PropsFields|Theorems on self-fields of profiles and trackers (C96).
CArea4|PropsArea4|Theorems on the density scan below transition and with acceleration (C86).
CSym|PropsSym|Theorems on the symmetries of the reconstruction and on its discrepancies (C97-C102).
CBind|PropsBind|Theorems on calls into the compiled tracking routine (C103-C105).
CSteps|PropsSteps|Theorems on the compiled routines for single turns and the routine that calls them (C106-C107).
CCalls|PropsCalls|Theorems on calls of the compiled reconstruction routines (C108-C110).
CTomoCalls|PropsTomoCalls|Theorems on reconstruction objects that hold arrays (C111).
CImageCalls|PropsImageCalls|Theorems on phase-space images made from arrays (C112).
CMultiCalls|PropsMultiCalls|Theorems on multi-bunch reconstruction objects that hold arrays (C113).
CCountCalls|PropsCountCalls|Theorems on calls of the compiled counting routine for several bunches (C114).
CHybridCalls|PropsHybridCalls|Theorems on the reference reconstruction with objects that hold arrays (C115).
COldCalls|PropsOldCalls|Theorems on the reconstruction functions kept for older programs (C116).
COldSteps|PropsOldSteps|Theorems on the functions for a single turn kept for older programs (C117).
