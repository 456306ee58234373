*.vo
*.vos
*.vok
*.glob
*.aux
.*.aux
.lia.cache
.nia.cache
.Makefile.d
rocq/Makefile
rocq/Makefile.conf
__pycache__/
